(** The replicated state machine implements the ledger of AtomizerSpec.v. *)
From Coq Require Import NArith Lia List Bool.
From stdpp Require Import base decidable list gmap.
From Verif Require Import Base CodecModel TxModel MsgModel AtomizerModel AtomizerSpec AtomizerProofs.
Import ListNotations.
Open Scope N_scope.

(** The chain, the accepted transactions and the atomizer. *)
Record SInv (d : N) (chain : list block) (next : list compact_tx) (a : atomizer) (tr : trace) : Prop := {
  si_inv : AInv 0 d tr a;
  si_blocks : nblocks tr = len chain;
  si_at : forall h : N, accepted_at 0 h tr =
    match chain !! N.to_nat h with
    | Some b => blk_txs b
    | None => if h =? len chain then next else []
    end;
  si_noins : insert_txs tr = [];
  si_next : at_complete a = next;
  si_pend : forall m, m ∈ at_txs a -> m = [];
  si_heights : consecutive 1 chain }.

Lemma SInv_new d : SInv d [] [] (atomizer_new 0 d) [].
Proof.
  constructor.
  - apply AInv_new.
  - reflexivity.
  - intro h. cbn [accepted_at lookup list_lookup]. destruct (h =? _); reflexivity.
  - reflexivity.
  - reflexivity.
  - intros m Hm. cbn in Hm. change ([] :: repeat [] (N.to_nat d)) with
      (repeat (@nil (compact_tx * list N)) (S (N.to_nat d))) in Hm.
    apply elem_of_list_In, repeat_spec in Hm. exact Hm.
  - intros i b H. inversion H.
Qed.

Lemma SInv_height d chain next a tr : SInv d chain next a tr -> at_height a = len chain.
Proof. intros [I B _ _ _ _ _]. rewrite (av_height _ _ _ _ I), B. lia. Qed.

Lemma SInv_from d chain next kept a tr o x : SInv d chain next a tr -> o <= len chain ->
  (exists u, u ∈ accepted_from 0 o tr /\ x ∈ ctx_inputs u) <->
  spent_after (Ledger chain next kept) o x.
Proof.
  intros S Ho. unfold spent_after. cbn [lg_chain lg_next]. split.
  - intros [u [Hu Hx]]. apply accepted_from_at in Hu. destruct Hu as [h [Hh Hu]].
    rewrite (si_at _ _ _ _ _ S) in Hu.
    destruct (chain !! N.to_nat h) as [b|] eqn:E.
    + left. exists b, u. split; [eapply elem_of_list_lookup_2; exact E|].
      split; [|tauto]. rewrite (si_heights _ _ _ _ _ S _ _ E). lia.
    + destruct (h =? len chain); [|inversion Hu]. right. exists u. tauto.
  - intros [[b [t [Hb [Hh [Ht Hx]]]]]|[t [Ht Hx]]].
    + apply elem_of_list_lookup in Hb. destruct Hb as [i Hi].
      exists t. split; [|exact Hx]. apply accepted_from_at. exists (N.of_nat i).
      rewrite (si_heights _ _ _ _ _ S _ _ Hi) in Hh. split; [lia|].
      rewrite (si_at _ _ _ _ _ S), Nat2N.id, Hi. exact Ht.
    + exists t. split; [|exact Hx]. apply accepted_from_at. exists (len chain). split; [exact Ho|].
      rewrite (si_at _ _ _ _ _ S).
      assert (En : chain !! N.to_nat (len chain) = None).
      { apply lookup_ge_None. unfold len. lia. }
      rewrite En, N.eqb_refl. exact Ht.
Qed.

Lemma SInv_accept d chain next a tr o t a' :
  SInv d chain next a tr ->
  AInv 0 d (tr ++ [(CComplete o t, RTx None true)]) a' ->
  at_complete a' = at_complete a ++ [t] -> at_txs a' = at_txs a ->
  SInv d chain (next ++ [t]) a' (tr ++ [(CComplete o t, RTx None true)]).
Proof.
  intros S I' Hc Htx. constructor.
  - exact I'.
  - rewrite nblocks_app, (si_blocks _ _ _ _ _ S). cbn [nblocks]. lia.
  - intro h. rewrite accepted_at_app, (si_at _ _ _ _ _ S), (si_blocks _ _ _ _ _ S).
    cbn [accepted_at step_accepted]. rewrite app_nil_r, N.add_0_l.
    destruct (chain !! N.to_nat h) as [b|] eqn:E.
    + destruct (N.eqb_spec h (len chain)) as [->|]; [|rewrite app_nil_r; reflexivity].
      apply lookup_lt_Some in E. unfold len in E. lia.
    + destruct (h =? len chain); [reflexivity|]. reflexivity.
  - rewrite insert_txs_app, (si_noins _ _ _ _ _ S). reflexivity.
  - rewrite Hc, (si_next _ _ _ _ _ S). reflexivity.
  - rewrite Htx. apply (si_pend _ _ _ _ _ S).
  - apply (si_heights _ _ _ _ _ S).
Qed.

Lemma insert_complete_txs a o t a' e : insert_complete a o t = ADone (a', e) -> at_txs a' = at_txs a.
Proof.
  unfold insert_complete. destruct (check_notification_offset _ _ _); [intro H; injection H as <- _; reflexivity|].
  destruct (check_stxo_cache _ _ _) as [[e1|]| |]; cbn [abind]; try discriminate.
  - intro H; injection H as <- _; reflexivity.
  - unfold add_tx_to_stxo_cache. destruct (at_spent a); cbn [abind]; [discriminate|].
    intro H. injection H as <- _. reflexivity.
Qed.

(** One transaction of a batch. *)
Lemma insert_complete_verdict d chain next kept a tr o t :
  SInv d chain next a tr -> len chain < two64 - 1 ->
  o + d < two64 -> (ctx_inputs t = [] -> o = 0) ->
  exists a' e, insert_complete a o t = ADone (a', e) /\
    verdict d (Ledger chain next kept) o t e /\
    match e with
    | None => exists tr', SInv d chain (next ++ [t]) a' tr'
    | Some _ => a' = a
    end.
Proof.
  intros S Hlen Ho Hz. pose proof (SInv_height _ _ _ _ _ S) as Hht.
  destruct (decide (ctx_inputs t = [])) as [He|Hne].
  - destruct (insert_complete_inputless 0 d tr a o t (si_inv _ _ _ _ _ S) He) as [a' [E [Hc I']]].
    { rewrite (Hz He). rewrite offset_exact by lia. rewrite Hht. lia. }
    exists a', None. split; [exact E|]. split; [apply VInputless; exact He|].
    eexists. eapply SInv_accept; [exact S|exact I'|exact Hc|].
    eapply insert_complete_txs. exact E.
  - destruct (insert_complete_exact 0 d tr a o t (si_inv _ _ _ _ _ S) ltac:(lia) Ho Hne)
      as [a' [[Hw E]|[Hw [ids [E [Hc [Hids I']]]]]]].
    + exists a, (Some (TxErr (ctx_id t) EStxoRange)). split; [exact E|]. split; [|reflexivity].
      apply VTooOld; [exact Hne|]. cbn [lg_chain]. rewrite <- Hht. exact Hw.
    + destruct ids as [|x0 ids].
      * exists a', None. split; [exact E|]. split.
        -- apply VAccept; [exact Hne|cbn [lg_chain]; lia|]. intros x Hx Hsp.
           apply (SInv_from d chain next kept a tr o x S) in Hsp; [|lia].
           assert (Hin : x ∈ @nil N) by (apply Hids; tauto). inversion Hin.
        -- eexists. eapply SInv_accept; [exact S|exact I'|exact Hc|].
           eapply insert_complete_txs. exact E.
      * exists a, (Some (TxErr (ctx_id t) (EInputsSpent (x0 :: ids)))). split; [exact E|].
        split; [|reflexivity].
        apply VSpent; [exact Hne|cbn [lg_chain]; lia|discriminate|].
        intro x. rewrite Hids, (SInv_from d chain next kept a tr o x S) by lia. reflexivity.
Qed.

Lemma insert_all_batch d txs : forall chain next kept a tr,
  SInv d chain next a tr -> len chain < two64 - 1 ->
  (forall o t, (o, t) ∈ txs -> o + d < two64 /\ (ctx_inputs t = [] -> o = 0)) ->
  exists a' es next' tr', insert_all a txs = ADone (a', es) /\
    ledger_batch d (Ledger chain next kept) txs (Ledger chain next' kept) es /\
    SInv d chain next' a' tr'.
Proof.
  induction txs as [|[o t] r IH]; intros chain next kept a tr S Hlen Hok.
  - exists a, [], next, tr. split; [reflexivity|]. split; [constructor|exact S].
  - destruct (Hok o t (elem_of_list_here _ _)) as [H1 H2].
    destruct (insert_complete_verdict d chain next kept a tr o t S Hlen H1 H2) as [a1 [e [E [V Hn]]]].
    cbn [insert_all]. rewrite E. cbn [abind].
    assert (Hok' : forall o t, (o, t) ∈ r -> o + d < two64 /\ (ctx_inputs t = [] -> o = 0)).
    { intros o' t' H. apply Hok. apply elem_of_list_further. exact H. }
    destruct e as [e|].
    + subst a1. destruct (IH chain next kept a tr S Hlen Hok') as [a' [es [next' [tr' [E' [B S']]]]]].
      rewrite E'. cbn [abind]. exists a', (e :: es), next', tr'.
      split; [reflexivity|]. split; [|exact S']. apply LBErr; [exact V|exact B].
    + destruct Hn as [tr1 S1].
      destruct (IH chain (next ++ [t]) kept a1 tr1 S1 Hlen Hok') as [a' [es [next' [tr' [E' [B S']]]]]].
      rewrite E'. cbn [abind]. exists a', es, next', tr'.
      split; [reflexivity|]. split; [|exact S']. apply LBOk; [exact V|exact B].
Qed.

Lemma SInv_block d chain next a tr :
  SInv d chain next a tr -> len chain + 1 < two64 ->
  exists a' tr', make_block a = ADone (a', (Block (len chain + 1) next, [])) /\
    SInv d (chain ++ [Block (len chain + 1) next]) [] a' tr'.
Proof.
  intros S Hlen. pose proof (SInv_height _ _ _ _ _ S) as Hht.
  pose proof (si_inv _ _ _ _ _ S) as I.
  destruct (make_block_total a) as [[a' [b es]] E].
  { rewrite (av_txs_len _ _ _ _ I), (av_depth _ _ _ _ I). reflexivity. }
  destruct (AInv_make 0 d tr a a' b es I ltac:(lia) E) as [I' [Hb _]].
  assert (Hbt : blk_txs b = next /\ es = [] /\ at_complete a' = [] /\
                at_txs a' = [] :: firstn (N.to_nat (at_depth a)) (at_txs a)).
  { unfold make_block in E. destruct (at_txs a !! N.to_nat (at_depth a)) as [old|] eqn:Eo; [|discriminate].
    injection E as <- <- <-. cbn [blk_txs at_complete at_txs].
    rewrite (si_pend _ _ _ _ _ S old) by (eapply elem_of_list_lookup_2; exact Eo).
    split; [apply (si_next _ _ _ _ _ S)|]. split; [reflexivity|]. split; reflexivity. }
  destruct Hbt as [Hbt [-> [Hc Htx]]].
  assert (Eb : b = Block (len chain + 1) next).
  { destruct b as [bh bt]. cbn in Hb, Hbt. subst bt. f_equal. lia. }
  subst b. exists a'. eexists. split; [exact E|]. constructor.
  - exact I'.
  - rewrite nblocks_app, (si_blocks _ _ _ _ _ S). cbn [nblocks]. unfold len.
    rewrite app_length. cbn [length]. lia.
  - intro h. rewrite accepted_at_app, (si_at _ _ _ _ _ S). cbn [accepted_at]. rewrite app_nil_r.
    assert (Hl : len (chain ++ [Block (len chain + 1) next]) = len chain + 1).
    { unfold len. rewrite app_length. cbn [length]. lia. }
    destruct (chain !! N.to_nat h) as [b|] eqn:E1.
    + rewrite lookup_app_l by (eapply lookup_lt_Some; exact E1). rewrite E1. reflexivity.
    + apply lookup_ge_None in E1. rewrite lookup_app_r by exact E1.
      destruct (N.eqb_spec h (len chain)) as [->|Hd].
      * replace (N.to_nat (len chain) - length chain)%nat with 0%nat by (unfold len; lia). reflexivity.
      * destruct (N.to_nat h - length chain)%nat as [|n] eqn:En.
        -- unfold len in Hd. lia.
        -- cbn. destruct (h =? len _); reflexivity.
  - rewrite insert_txs_app, (si_noins _ _ _ _ _ S). reflexivity.
  - exact Hc.
  - intros m Hm. rewrite Htx in Hm. apply elem_of_cons in Hm. destruct Hm as [->|Hm]; [reflexivity|].
    apply (si_pend _ _ _ _ _ S). eapply elem_of_take in Hm. destruct Hm as [i [Hi _]].
    eapply elem_of_list_lookup_2. exact Hi.
  - intros i b Hi. apply lookup_app_Some in Hi. destruct Hi as [Hi|[Hi Hi2]].
    + exact (si_heights _ _ _ _ _ S i b Hi).
    + apply list_lookup_singleton_Some in Hi2. destruct Hi2 as [Hz <-]. cbn [blk_height].
      unfold len. lia.
Qed.

(** The blocks the state machine keeps. *)
Definition kept_ok (chain kept : list block) (m : list (N * block)) : Prop :=
  m = map (fun b => (blk_height b, b)) kept /\
  (forall b, b ∈ kept -> b ∈ chain).

Lemma sm_commit_refines d g s tr r :
  SInv d (lg_chain g) (lg_next g) (sm_at s) tr ->
  kept_ok (lg_chain g) (lg_kept g) (sm_blocks s) ->
  request_ok d r -> len (lg_chain g) + block_requests [r] < two64 - 1 ->
  exists s' x g' tr', sm_commit s r = ADone (s', x) /\ ledger_step d g r g' x /\
    SInv d (lg_chain g') (lg_next g') (sm_at s') tr' /\
    kept_ok (lg_chain g') (lg_kept g') (sm_blocks s') /\
    len (lg_chain g') = len (lg_chain g) + block_requests [r].
Proof.
  intros S [K1 K2] Hr Hlen. destruct g as [chain next kept]. cbn [lg_chain lg_next lg_kept] in *.
  destruct r as [txs| |h|h].
  - destruct (insert_all_batch d txs chain next kept (sm_at s) tr S) as [a' [es [next' [tr' [E [B S']]]]]].
    { cbn in Hlen. lia. } { exact Hr. }
    cbn [sm_commit]. rewrite E. cbn [abind].
    eexists _, _, (Ledger chain next' kept), tr'. split; [reflexivity|].
    split; [apply LSAgg; exact B|]. cbn [sm_at sm_blocks lg_chain lg_next lg_kept].
    split; [exact S'|]. split; [split; assumption|]. cbn. lia.
  - destruct (SInv_block d chain next (sm_at s) tr S) as [a' [tr' [E S']]].
    { cbn in Hlen. lia. }
    cbn [sm_commit]. rewrite E. cbn [abind].
    eexists _, _, _, tr'. split; [reflexivity|]. split; [apply (LSBlock d (Ledger chain next kept)); reflexivity|].
    cbn [sm_at sm_blocks lg_chain lg_next lg_kept]. split; [exact S'|]. split.
    + assert (Hnew : len chain + 1 ∉ map fst (sm_blocks s)).
      { rewrite K1, map_map. cbn [fst]. intro Hin. apply elem_of_list_In, in_map_iff in Hin.
        destruct Hin as [b [Hb Hin]]. apply elem_of_list_In, K2, elem_of_list_lookup in Hin.
        destruct Hin as [i Hi]. rewrite (si_heights _ _ _ _ _ S _ _ Hi) in Hb.
        apply lookup_lt_Some in Hi. unfold len in Hb. lia. }
      split.
      * unfold emplace_map. cbn [blk_height]. rewrite decide_False by exact Hnew.
        rewrite map_app, K1. reflexivity.
      * intros b Hb. apply elem_of_app. apply elem_of_app in Hb.
        destruct Hb as [Hb|Hb]; [left; apply K2; exact Hb|right; exact Hb].
    + unfold len. rewrite app_length. cbn. lia.
  - cbn [sm_commit]. unfold block_find.
    destruct (List.find (fun p => fst p =? h) (sm_blocks s)) as [[h1 b]|] eqn:E.
    + apply find_some in E. destruct E as [E1 E2]. cbn [fst] in E2. apply N.eqb_eq in E2. subst h1.
      rewrite K1 in E1. apply in_map_iff in E1. destruct E1 as [b' [E1 E3]]. injection E1 as E1 <-.
      eexists s, _, (Ledger chain next kept), tr. split; [reflexivity|].
      split; [apply LSGet; [apply elem_of_list_In; exact E3|exact E1]|].
      split; [exact S|]. split; [split; assumption|]. cbn [lg_chain]. cbn. lia.
    + eexists s, _, (Ledger chain next kept), tr. split; [reflexivity|]. split.
      * apply LSMiss. cbn [lg_kept]. intros b Hb Hh.
        assert (Hin : In (h, b) (sm_blocks s)).
        { rewrite K1. apply in_map_iff. exists b. split; [rewrite Hh; reflexivity|].
          apply elem_of_list_In. exact Hb. }
        pose proof (find_none _ _ E _ Hin) as Hc. cbn in Hc. apply N.eqb_neq in Hc. congruence.
      * split; [exact S|]. split; [split; assumption|]. cbn [lg_chain]. cbn. lia.
  - cbn [sm_commit]. eexists _, _, _, tr. split; [reflexivity|]. split; [apply LSPrune|].
    cbn [sm_at sm_blocks lg_chain lg_next lg_kept]. split; [exact S|]. split; [|cbn; lia]. split.
    + rewrite K1. clear. induction kept as [|b l IH]; [reflexivity|].
      cbn [map List.filter snd]. rewrite IH. rewrite <- N.leb_antisym.
      destruct (h <=? blk_height b); reflexivity.
    + intros b Hb. apply elem_of_list_In, List.filter_In in Hb. apply K2, elem_of_list_In. tauto.
Qed.

Lemma sm_run_refines d rs : forall g s tr,
  SInv d (lg_chain g) (lg_next g) (sm_at s) tr ->
  kept_ok (lg_chain g) (lg_kept g) (sm_blocks s) ->
  (forall r, r ∈ rs -> request_ok d r) -> len (lg_chain g) + block_requests rs < two64 - 1 ->
  exists s' xs g' tr', sm_run s rs = ADone (s', xs) /\ ledger_run d g rs g' xs /\
    SInv d (lg_chain g') (lg_next g') (sm_at s') tr' /\
    kept_ok (lg_chain g') (lg_kept g') (sm_blocks s').
Proof.
  induction rs as [|r rs IH]; intros g s tr S K Hr Hlen.
  - exists s, [], g, tr. split; [reflexivity|]. split; [constructor|]. tauto.
  - assert (Hsplit : block_requests (r :: rs) = block_requests [r] + block_requests rs).
    { unfold block_requests, len. cbn [List.filter]. destruct r; cbn [length app]; lia. }
    destruct (sm_commit_refines d g s tr r S K (Hr r (elem_of_list_here _ _)) ltac:(lia))
      as [s1 [x [g1 [tr1 [E [L [S1 [K1 Hl1]]]]]]]].
    destruct (IH g1 s1 tr1 S1 K1) as [s2 [xs [g2 [tr2 [E2 [L2 [S2 K2]]]]]]].
    { intros r' Hr'. apply Hr. apply elem_of_list_further. exact Hr'. }
    { lia. }
    cbn [sm_run]. rewrite E. cbn [abind]. rewrite E2. cbn [abind].
    exists s2, (x :: xs), g2, tr2. split; [reflexivity|].
    split; [eapply LRCons; [exact L|exact L2]|]. tauto.
Qed.

Theorem sm_refines_ledger d rs :
  (forall r, r ∈ rs -> request_ok d r) -> block_requests rs < two64 - 1 ->
  exists s' xs g', sm_run (sm_new d) rs = ADone (s', xs) /\
    ledger_run d (Ledger [] [] []) rs g' xs.
Proof.
  intros Hr Hlen.
  destruct (sm_run_refines d rs (Ledger [] [] []) (sm_new d) []) as [s' [xs [g' [tr' [E [L _]]]]]].
  - apply SInv_new.
  - split; [reflexivity|]. intros b Hb. inversion Hb.
  - exact Hr.
  - cbn [lg_chain]. unfold len at 1. cbn [length]. lia.
  - exists s', xs, g'. tauto.
Qed.

(** Consequences for the sequence of blocks handed out. *)
Definition blocks_of (xs : list (option sm_response)) : list block :=
  concat (map (fun x => match x with Some (SBlock b _) => [b] | _ => [] end) xs).

Lemma ledger_batch_chain d g txs g' es :
  ledger_batch d g txs g' es -> lg_chain g' = lg_chain g /\ lg_kept g' = lg_kept g.
Proof.
  induction 1 as [|g o t r g' es V B IH|g o t r g' e es V B IH]; [tauto| |tauto].
  cbn [lg_chain lg_kept] in IH. tauto.
Qed.

Lemma ledger_run_chain d g rs g' xs :
  ledger_run d g rs g' xs -> lg_chain g' = lg_chain g ++ blocks_of xs.
Proof.
  induction 1 as [g|g r g1 x rs g2 xs H1 H2 IH].
  - cbn. rewrite app_nil_r. reflexivity.
  - rewrite IH. inversion H1; subst; cbn [lg_chain].
    + match goal with B : ledger_batch _ _ _ _ _ |- _ => rewrite (proj1 (ledger_batch_chain _ _ _ _ _ B)) end.
      destruct es; reflexivity.
    + rewrite <- app_assoc. reflexivity.
    + reflexivity.
    + reflexivity.
    + reflexivity.
Qed.

Lemma ledger_run_heights d g rs g' xs :
  ledger_run d g rs g' xs -> consecutive 1 (lg_chain g) -> consecutive 1 (lg_chain g').
Proof.
  induction 1 as [g|g r g1 x rs g2 xs H1 H2 IH]; intro Hc; [exact Hc|].
  apply IH. clear IH H2. inversion H1; subst; cbn [lg_chain]; try exact Hc.
  - match goal with B : ledger_batch _ _ _ _ _ |- _ => rewrite (proj1 (ledger_batch_chain _ _ _ _ _ B)) end.
    exact Hc.
  - intros i b' Hi. apply lookup_app_Some in Hi. destruct Hi as [Hi|[Hi Hi2]].
    + exact (Hc i b' Hi).
    + apply list_lookup_singleton_Some in Hi2. destruct Hi2 as [Hz <-]. cbn [blk_height]. unfold len. lia.
Qed.

Theorem sm_heights d rs s' xs :
  (forall r, r ∈ rs -> request_ok d r) -> block_requests rs < two64 - 1 ->
  sm_run (sm_new d) rs = ADone (s', xs) ->
  consecutive 1 (blocks_of xs) /\ len (blocks_of xs) = block_requests rs.
Proof.
  intros Hr Hlen E. destruct (sm_refines_ledger d rs Hr Hlen) as [s2 [xs2 [g [E2 L]]]].
  rewrite E in E2. injection E2 as <- <-. split.
  - pose proof (ledger_run_chain _ _ _ _ _ L) as Hc. cbn [lg_chain app] in Hc. rewrite <- Hc.
    eapply ledger_run_heights; [exact L|]. intros i b Hi. inversion Hi.
  - clear - L. induction L as [|g r g1 x rs g2 xs H1 H2 IH]; [reflexivity|].
    unfold block_requests, blocks_of, len in *. cbn [List.filter map concat].
    rewrite app_length. inversion H1; subst; cbn [length]; try lia.
    destruct es; cbn [length]; lia.
Qed.

(** A block stays available until a later prune request names a greater height. *)
Definition prunes_above (h : N) (r : sm_request) : bool :=
  match r with QPrune p => h <? p | _ => false end.

Lemma ledger_keeps d g rs g' xs b :
  ledger_run d g rs g' xs -> b ∈ lg_kept g ->
  (forall r, r ∈ rs -> prunes_above (blk_height b) r = false) -> b ∈ lg_kept g'.
Proof.
  induction 1 as [g|g r g1 x rs g2 xs H1 H2 IH]; intros Hb Hp; [exact Hb|].
  apply IH.
  - pose proof (Hp r (elem_of_list_here _ _)) as Hr. inversion H1; subst; cbn [lg_kept]; try exact Hb.
    + match goal with B : ledger_batch _ _ _ _ _ |- _ => rewrite (proj2 (ledger_batch_chain _ _ _ _ _ B)) end.
      exact Hb.
    + apply elem_of_app. left. exact Hb.
    + apply elem_of_list_In, List.filter_In. split; [apply elem_of_list_In; exact Hb|].
      cbn [prunes_above] in Hr. apply N.ltb_ge in Hr. apply N.leb_le. exact Hr.
  - intros r' Hr'. apply Hp. apply elem_of_list_further. exact Hr'.
Qed.

Lemma ledger_run_app d rs1 : forall g rs2 g2 xs,
  ledger_run d g (rs1 ++ rs2) g2 xs ->
  exists g1 xs1 xs2, ledger_run d g rs1 g1 xs1 /\ ledger_run d g1 rs2 g2 xs2 /\ xs = xs1 ++ xs2.
Proof.
  induction rs1 as [|r rs1 IH]; intros g rs2 g2 xs H.
  - exists g, [], xs. split; [constructor|]. split; [exact H|reflexivity].
  - cbn [app] in H. inversion H; subst.
    match goal with L : ledger_run _ _ (rs1 ++ rs2) _ _ |- _ => destruct (IH _ _ _ _ L) as [g3 [y1 [y2 [A [B ->]]]]] end.
    eexists g3, (_ :: y1), y2. split; [eapply LRCons; eassumption|]. split; [exact B|reflexivity].
Qed.

Lemma ledger_kept_chain d g rs g' xs :
  ledger_run d g rs g' xs -> (forall b, b ∈ lg_kept g -> b ∈ lg_chain g) ->
  forall b, b ∈ lg_kept g' -> b ∈ lg_chain g'.
Proof.
  induction 1 as [g|g r g1 x rs g2 xs H1 H2 IH]; intro Hc; [exact Hc|].
  apply IH. clear IH H2. inversion H1; subst; cbn [lg_chain lg_kept]; try exact Hc.
  - match goal with B : ledger_batch _ _ _ _ _ |- _ => rewrite (proj1 (ledger_batch_chain _ _ _ _ _ B)), (proj2 (ledger_batch_chain _ _ _ _ _ B)) end.
    exact Hc.
  - intros b' Hb'. apply elem_of_app in Hb'. apply elem_of_app.
    destruct Hb' as [Hb'|Hb']; [left; apply Hc; exact Hb'|right; exact Hb'].
  - intros b' Hb'. apply elem_of_list_In, List.filter_In in Hb'. apply Hc, elem_of_list_In. tauto.
Qed.

Lemma consecutive_inj c b1 b2 :
  consecutive 1 c -> b1 ∈ c -> b2 ∈ c -> blk_height b1 = blk_height b2 -> b1 = b2.
Proof.
  intros Hc H1 H2 Hh. apply elem_of_list_lookup in H1, H2. destruct H1 as [i Hi], H2 as [j Hj].
  rewrite (Hc _ _ Hi), (Hc _ _ Hj) in Hh. assert (i = j) by lia. subst j. congruence.
Qed.

Theorem sm_get_block d rs1 rs2 rs3 s' b es xs1 xs2 x xs3 :
  (forall r, r ∈ rs1 ++ QMakeBlock :: rs2 ++ QGetBlock (blk_height b) :: rs3 -> request_ok d r) ->
  block_requests (rs1 ++ QMakeBlock :: rs2 ++ QGetBlock (blk_height b) :: rs3) < two64 - 1 ->
  sm_run (sm_new d) (rs1 ++ QMakeBlock :: rs2 ++ QGetBlock (blk_height b) :: rs3) =
    ADone (s', xs1 ++ Some (SBlock b es) :: xs2 ++ x :: xs3) ->
  length xs1 = length rs1 -> length xs2 = length rs2 ->
  (forall r, r ∈ rs2 -> prunes_above (blk_height b) r = false) ->
  x = Some (SGet b).
Proof.
  intros Hr Hlen E L1 L2 Hp.
  destruct (sm_refines_ledger d _ Hr Hlen) as [s2 [xs [g [E2 L]]]].
  rewrite E in E2. injection E2 as <- <-.
  assert (Len : forall g rs g' xs, ledger_run d g rs g' xs -> length xs = length rs).
  { clear. induction 1; cbn [length]; congruence. }
  apply ledger_run_app in L. destruct L as [g1 [y1 [y2 [A [B Hy]]]]].
  apply app_inj_1 in Hy; [|rewrite (Len _ _ _ _ A); exact L1]. destruct Hy as [<- Hy].
  pose proof (ledger_kept_chain _ _ _ _ _ A ltac:(intros b0 Hb0; inversion Hb0)) as Kc.
  pose proof (ledger_run_heights _ _ _ _ _ A ltac:(intros i0 b0 Hb0; inversion Hb0)) as Hc.
  inversion B as [|g1' r1 g2 y rs' g' ys S1 B2 EA EB EC ED]; subst. clear B.
  injection ED as Ex Eys. subst y ys.
  assert (Kc2 : forall b, b ∈ lg_kept g2 -> b ∈ lg_chain g2).
  { eapply ledger_kept_chain; [|exact Kc]. eapply LRCons; [exact S1|constructor]. }
  assert (Hc2 : consecutive 1 (lg_chain g2)).
  { eapply ledger_run_heights; [|exact Hc]. eapply LRCons; [exact S1|constructor]. }
  assert (Hb2 : b ∈ lg_kept g2).
  { inversion S1; subst. cbn [lg_kept]. apply elem_of_app. right. apply elem_of_list_here. }
  clear S1. apply ledger_run_app in B2. destruct B2 as [g3 [z1 [z2 [B3 [B4 Hz]]]]].
  apply app_inj_1 in Hz; [|rewrite (Len _ _ _ _ B3); exact L2]. destruct Hz as [<- Hz].
  pose proof (ledger_keeps _ _ _ _ _ b B3 Hb2 Hp) as Hb3.
  pose proof (ledger_kept_chain _ _ _ _ _ B3 Kc2) as Kc3.
  pose proof (ledger_run_heights _ _ _ _ _ B3 Hc2) as Hc3.
  inversion B4 as [|g1' r1 g5 y rs' g' ys S3 B5 EA EB EC ED]; subst. injection ED as Ex Eys. subst y.
  inversion S3; subst.
  - f_equal. f_equal. eapply consecutive_inj; [exact Hc3| | |assumption]; apply Kc3; assumption.
  - exfalso. match goal with H : forall b, _ -> blk_height b <> _ |- _ => exact (H b Hb3 eq_refl) end.
Qed.
