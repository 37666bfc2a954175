(** Proofs about calls of the atomizer. *)
From Coq Require Import NArith Lia List Bool.
From stdpp Require Import base decidable list gmap.
From Verif Require Import Base CodecModel TxModel MsgModel AtomizerModel AtomizerSpec.
Import ListNotations.
Open Scope N_scope.

(** ** Containers *)

Lemma emplace_set_elem `{EqDecision K} (m : list K) (k x : K) :
  x ∈ emplace_set m k <-> x ∈ m \/ x = k.
Proof.
  unfold emplace_set. destruct (decide (k ∈ m)) as [H|H].
  - split; [tauto|]. intros [?| ->]; assumption.
  - rewrite elem_of_app, elem_of_list_singleton. tauto.
Qed.

Lemma fold_emplace_elem `{EqDecision K} (l m : list K) (x : K) :
  x ∈ fold_left emplace_set l m <-> x ∈ m \/ x ∈ l.
Proof.
  revert m. induction l as [|k l IH]; intro m; cbn [fold_left].
  - rewrite elem_of_nil. tauto.
  - rewrite IH, emplace_set_elem, elem_of_cons. tauto.
Qed.

Lemma emplace_set_nodup `{EqDecision K} (m : list K) (k : K) :
  base.NoDup m -> base.NoDup (emplace_set m k).
Proof.
  intro H. unfold emplace_set. destruct (decide (k ∈ m)); [exact H|].
  apply NoDup_app. split; [exact H|]. split.
  - intros x Hx Hk. apply elem_of_list_singleton in Hk. subst. contradiction.
  - apply NoDup_singleton.
Qed.

Lemma fold_emplace_nodup `{EqDecision K} (l m : list K) :
  base.NoDup m -> base.NoDup (fold_left emplace_set l m).
Proof.
  revert m. induction l as [|k l IH]; intros m H; cbn [fold_left]; [exact H|].
  apply IH. apply emplace_set_nodup. exact H.
Qed.

Lemma spent_inputs_inner (layer : list N) (ins acc : list N) (x : N) :
  x ∈ fold_left (fun acc x => if bool_decide (x ∈ layer) then emplace_set acc x else acc) ins acc
  <-> x ∈ acc \/ (x ∈ ins /\ x ∈ layer).
Proof.
  revert acc. induction ins as [|k l IH]; intro acc; cbn [fold_left].
  - rewrite elem_of_nil. tauto.
  - rewrite IH, elem_of_cons. case_bool_decide as Hk.
    + rewrite emplace_set_elem. split.
      * intros [[?| ->]|?]; tauto.
      * intros [?|[[->|?] ?]]; tauto.
    + split; [tauto|]. intros [?|[[->|?] ?]]; tauto.
Qed.

Lemma spent_inputs_fold (layers : list (list N)) (ins acc : list N) (x : N) :
  x ∈ fold_left (fun acc layer =>
    fold_left (fun acc x => if bool_decide (x ∈ layer) then emplace_set acc x else acc) ins acc)
    layers acc
  <-> x ∈ acc \/ (x ∈ ins /\ exists layer, layer ∈ layers /\ x ∈ layer).
Proof.
  revert acc. induction layers as [|y r IH]; intro acc; cbn [fold_left].
  - split; [tauto|]. intros [?|[_ [layer [Hl _]]]]; [assumption|]. inversion Hl.
  - rewrite IH, spent_inputs_inner. split.
    + intros [[?|[? ?]]|[? [z [? ?]]]]; [tauto| |].
      * right. split; [assumption|]. exists y. split; [apply elem_of_list_here|assumption].
      * right. split; [assumption|]. exists z. split; [apply elem_of_list_further; assumption|assumption].
    + intros [?|[? [z [Hz ?]]]]; [tauto|].
      apply elem_of_cons in Hz. destruct Hz as [->|Hz]; [tauto|].
      right. split; [assumption|]. exists z. tauto.
Qed.

Lemma spent_inputs_elem (layers : list (list N)) (ins : list N) (x : N) :
  x ∈ spent_inputs layers ins <-> x ∈ ins /\ exists layer, layer ∈ layers /\ x ∈ layer.
Proof.
  unfold spent_inputs. rewrite spent_inputs_fold. rewrite elem_of_nil. tauto.
Qed.

Lemma take_layer (layers : list (list N)) (n : nat) (layer : list N) :
  layer ∈ firstn n layers <-> exists i, (i < n)%nat /\ layers !! i = Some layer.
Proof.
  rewrite elem_of_list_lookup. split.
  - intros [i Hi]. apply lookup_take_Some in Hi. exists i. tauto.
  - intros [i [Hi H]]. exists i. apply lookup_take_Some. tauto.
Qed.

(** ** What a trace accepted *)

Fixpoint accepted_at (h0 h : N) (tr : trace) : list compact_tx :=
  match tr with
  | [] => []
  | (CMake, _) :: r => accepted_at (h0 + 1) h r
  | p :: r => (if h =? h0 then step_accepted p else []) ++ accepted_at h0 h r
  end.

Fixpoint insert_txs (tr : trace) : list compact_tx :=
  match tr with
  | [] => []
  | (CInsert _ t _, _) :: r => t :: insert_txs r
  | _ :: r => insert_txs r
  end.

Lemma nblocks_app tr1 tr2 : nblocks (tr1 ++ tr2) = nblocks tr1 + nblocks tr2.
Proof.
  induction tr1 as [|[c r] tr IH]; [reflexivity|].
  cbn [app nblocks]. destruct c; rewrite IH; lia.
Qed.

Lemma accepted_at_app h0 h tr1 tr2 :
  accepted_at h0 h (tr1 ++ tr2) = accepted_at h0 h tr1 ++ accepted_at (h0 + nblocks tr1) h tr2.
Proof.
  revert h0. induction tr1 as [|[c r] tr IH]; intro h0.
  - cbn [app nblocks accepted_at]. rewrite N.add_0_r. reflexivity.
  - cbn [app nblocks accepted_at]. destruct c; rewrite IH.
    + rewrite app_assoc. reflexivity.
    + rewrite app_assoc. reflexivity.
    + do 2 f_equal. lia.
Qed.

Lemma accepted_from_app h0 h tr1 tr2 :
  accepted_from h0 h (tr1 ++ tr2) = accepted_from h0 h tr1 ++ accepted_from (h0 + nblocks tr1) h tr2.
Proof.
  revert h0. induction tr1 as [|[c r] tr IH]; intro h0.
  - cbn [app nblocks accepted_from]. rewrite N.add_0_r. reflexivity.
  - cbn [app nblocks accepted_from]. destruct c; rewrite IH.
    + rewrite app_assoc. reflexivity.
    + rewrite app_assoc. reflexivity.
    + do 2 f_equal. lia.
Qed.

Lemma accepted_since_app acc tr1 tr2 :
  accepted_since acc (tr1 ++ tr2) = accepted_since (accepted_since acc tr1) tr2.
Proof.
  revert acc. induction tr1 as [|[c r] tr IH]; intro acc; [reflexivity|].
  cbn [app accepted_since]. destruct c; apply IH.
Qed.

Lemma insert_txs_app tr1 tr2 : insert_txs (tr1 ++ tr2) = insert_txs tr1 ++ insert_txs tr2.
Proof.
  induction tr1 as [|[c r] tr IH]; [reflexivity|].
  cbn [app insert_txs]. destruct c; rewrite IH; reflexivity.
Qed.

Lemma accepted_at_lower h0 h tr t : t ∈ accepted_at h0 h tr -> h0 <= h.
Proof.
  revert h0. induction tr as [|[c r] tr IH]; intros h0 H; cbn [accepted_at] in H.
  - inversion H.
  - destruct c.
    + apply elem_of_app in H. destruct H as [H|H]; [|apply IH; exact H].
      destruct (N.eqb_spec h h0); [lia|inversion H].
    + apply elem_of_app in H. destruct H as [H|H]; [|apply IH; exact H].
      destruct (N.eqb_spec h h0); [lia|inversion H].
    + apply IH in H. lia.
Qed.

Lemma accepted_at_upper h0 h tr t : t ∈ accepted_at h0 h tr -> h <= h0 + nblocks tr.
Proof.
  revert h0. induction tr as [|[c r] tr IH]; intros h0 H; cbn [accepted_at nblocks] in *.
  - inversion H.
  - destruct c.
    + apply elem_of_app in H. destruct H as [H|H]; [|apply IH; exact H].
      destruct (N.eqb_spec h h0); [lia|inversion H].
    + apply elem_of_app in H. destruct H as [H|H]; [|apply IH; exact H].
      destruct (N.eqb_spec h h0); [lia|inversion H].
    + apply IH in H. lia.
Qed.

Lemma accepted_from_at h0 h tr t :
  t ∈ accepted_from h0 h tr <-> exists h', h <= h' /\ t ∈ accepted_at h0 h' tr.
Proof.
  revert h0. induction tr as [|[c r] tr IH]; intros h0; cbn [accepted_at accepted_from].
  - split; [intro H; inversion H|]. intros [h' [_ H]]. inversion H.
  - assert (Gen : forall l : list compact_tx,
      (t ∈ (if h <=? h0 then l else []) ++ accepted_from h0 h tr <->
       exists h', h <= h' /\ t ∈ (if h' =? h0 then l else []) ++ accepted_at h0 h' tr)).
    { intro l. rewrite elem_of_app, IH. split.
      - intros [H|[h' [Hh H]]].
        + destruct (N.leb_spec h h0); [|inversion H]. exists h0. split; [assumption|].
          rewrite N.eqb_refl. apply elem_of_app. left. exact H.
        + exists h'. split; [exact Hh|]. apply elem_of_app. right. exact H.
      - intros [h' [Hh H]]. apply elem_of_app in H. destruct H as [H|H].
        + destruct (N.eqb_spec h' h0); [|inversion H]. subst h'. left.
          destruct (N.leb_spec h h0); [exact H|lia].
        + right. exists h'. tauto. }
    destruct c; [apply Gen|apply Gen|apply IH].
Qed.

(** ** The invariant of the atomizer's state *)

Definition teq (t1 t2 : compact_tx) : Prop := ctx_id t1 = ctx_id t2 /\ same_tx t1 t2.

Lemma teq_refl t : teq t t.
Proof. split; [reflexivity|]. split; reflexivity. Qed.

Definition pend_ok (tr : trace) (best : N) (o : nat) (k : compact_tx) (atts : list N) : Prop :=
  k ∈ insert_txs tr /\ (exists h, h + N.of_nat o = best) /\
  forall i, i ∈ atts -> exists h t as' r,
    (CInsert h t as', r) ∈ tr /\ ctx_id t = ctx_id k /\ i ∈ as' /\ h + N.of_nat o = best.

Record AInv (h0 d : N) (tr : trace) (a : atomizer) : Prop := {
  av_depth : at_depth a = d;
  av_height : at_height a = h0 + nblocks tr;
  av_spent_len : length (at_spent a) = S (N.to_nat d);
  av_txs_len : length (at_txs a) = S (N.to_nat d);
  av_spent : forall i layer x, at_spent a !! i = Some layer ->
    (x ∈ layer <-> exists h t, h + N.of_nat i = at_height a /\
                     t ∈ accepted_at h0 h tr /\ x ∈ ctx_inputs t);
  av_pend : forall o layer k atts, at_txs a !! o = Some layer -> (k, atts) ∈ layer ->
    pend_ok tr (at_height a) o k atts;
  av_complete : Forall2 teq (at_complete a) (accepted_since [] tr) }.

Lemma AInv_new h0 d : AInv h0 d [] (atomizer_new h0 d).
Proof.
  constructor; cbn [atomizer_new at_depth at_height at_spent at_txs at_complete nblocks].
  - reflexivity.
  - lia.
  - apply repeat_length.
  - apply repeat_length.
  - intros i layer x H. apply elem_of_list_lookup_2 in H. apply elem_of_list_In in H.
    apply repeat_spec in H. subst layer. cbn [accepted_at]. split.
    + intro Hx. inversion Hx.
    + intros [h [t [_ [Ht _]]]]. inversion Ht.
  - intros o layer k atts H Hk. apply elem_of_list_lookup_2 in H. apply elem_of_list_In in H.
    apply repeat_spec in H. subst layer. inversion Hk.
  - constructor.
Qed.

(** make_block *)
Lemma AInv_make h0 d tr a a' b es :
  AInv h0 d tr a -> at_height a + 1 < two64 -> make_block a = ADone (a', (b, es)) ->
  AInv h0 d (tr ++ [(CMake, RBlock b es)]) a' /\
  blk_height b = at_height a + 1 /\ Forall2 teq (blk_txs b) (accepted_since [] tr).
Proof.
  intros I Hb H. unfold make_block in H.
  destruct (at_txs a !! N.to_nat (at_depth a)) as [old|] eqn:E; [|discriminate].
  injection H as <- <- <-.
  assert (Hh : add64 (at_height a) 1 = at_height a + 1).
  { unfold add64, wrap64. apply N.mod_small. exact Hb. }
  destruct I as [I1 I2 I3 I4 I5 I6 I7].
  split; [|split; [exact Hh|exact I7]].
  constructor; cbn [at_depth at_height at_spent at_txs at_complete].
  - exact I1.
  - rewrite Hh, I2, nblocks_app. cbn [nblocks]. lia.
  - cbn [length]. rewrite firstn_length, I3, I1. lia.
  - cbn [length]. rewrite firstn_length, I4, I1. lia.
  - intros i layer x Hi. destruct i as [|i].
    + injection Hi as <-. split; [intro Hx; inversion Hx|].
      intros [h [t [Hsum [Ht _]]]]. exfalso.
      rewrite accepted_at_app in Ht. cbn [accepted_at] in Ht. rewrite app_nil_r in Ht.
      apply accepted_at_upper in Ht. rewrite Hh in Hsum. lia.
    + cbn in Hi. apply lookup_take_Some in Hi. destruct Hi as [Hi _].
      rewrite (I5 i layer x Hi). split.
      * intros [h [t [Hsum [Ht Hx]]]]. exists h, t. split; [rewrite Hh; lia|].
        split; [|exact Hx]. rewrite accepted_at_app. cbn [accepted_at]. rewrite app_nil_r. exact Ht.
      * intros [h [t [Hsum [Ht Hx]]]]. exists h, t. split; [rewrite Hh in Hsum; lia|].
        split; [|exact Hx]. rewrite accepted_at_app in Ht. cbn [accepted_at] in Ht.
        rewrite app_nil_r in Ht. exact Ht.
  - intros o layer k atts Ho Hk. destruct o as [|o].
    + injection Ho as <-. inversion Hk.
    + cbn in Ho. apply lookup_take_Some in Ho. destruct Ho as [Ho _].
      destruct (I6 o layer k atts Ho Hk) as [Hin [[hx Hhx] Hatt]]. split; [|split].
      * rewrite insert_txs_app. apply elem_of_app. left. exact Hin.
      * exists hx. rewrite Hh. lia.
      * intros i Hi. destruct (Hatt i Hi) as [h [t [as' [r [H1 [H2 [H3 H4]]]]]]].
        exists h, t, as', r. split; [apply elem_of_app; left; exact H1|].
        split; [exact H2|]. split; [exact H3|]. rewrite Hh. lia.
  - rewrite accepted_since_app. cbn. constructor.
Qed.

Lemma make_block_total a :
  length (at_txs a) = S (N.to_nat (at_depth a)) -> exists x, make_block a = ADone x.
Proof.
  intro H. unfold make_block. destruct (at_txs a !! N.to_nat (at_depth a)) eqn:E; [eauto|].
  apply lookup_ge_None in E. lia.
Qed.

(** The check of the spent cache. *)
Lemma check_stxo_exact h0 d tr a t off :
  AInv h0 d tr a -> ctx_inputs t <> [] -> off <= d -> off <= at_height a ->
  exists ids, check_stxo_cache a t off = ADone
      (match ids with [] => None | _ => Some (TxErr (ctx_id t) (EInputsSpent ids)) end) /\
    forall x, x ∈ ids <->
      x ∈ ctx_inputs t /\ exists u, u ∈ accepted_from h0 (at_height a - off) tr /\ x ∈ ctx_inputs u.
Proof.
  intros I Hne Hoff Hh.
  exists (spent_inputs (firstn (S (N.to_nat off)) (at_spent a)) (ctx_inputs t)). split.
  - unfold check_stxo_cache. destruct (ctx_inputs t) as [|x l] eqn:E; [contradiction|].
    destruct (N.leb_spec (len (at_spent a)) off) as [Hl|Hl].
    + unfold len in Hl. rewrite (av_spent_len _ _ _ _ I) in Hl. lia.
    + destruct (spent_inputs _ _); reflexivity.
  - intro x. rewrite spent_inputs_elem. split.
    + intros [Hx [layer [Hl Hxl]]]. split; [exact Hx|].
      apply take_layer in Hl. destruct Hl as [i [Hi Hl]].
      apply (av_spent _ _ _ _ I i layer x Hl) in Hxl. destruct Hxl as [h [u [Hs [Hu Hxu]]]].
      exists u. split; [|exact Hxu]. apply accepted_from_at. exists h. split; [lia|exact Hu].
    + intros [Hx [u [Hu Hxu]]]. split; [exact Hx|].
      apply accepted_from_at in Hu. destruct Hu as [h [Hle Hu]].
      pose proof (accepted_at_upper _ _ _ _ Hu) as Hup.
      pose proof (av_height _ _ _ _ I) as Hht.
      assert (Hi : (N.to_nat (at_height a - h) < length (at_spent a))%nat).
      { rewrite (av_spent_len _ _ _ _ I). lia. }
      apply lookup_lt_is_Some_2 in Hi. destruct Hi as [layer Hl].
      exists layer. split.
      * apply take_layer. exists (N.to_nat (at_height a - h)). split; [lia|exact Hl].
      * apply (av_spent _ _ _ _ I _ layer x Hl). exists h, u. split; [lia|]. tauto.
Qed.

Lemma offset_small a h d : h + d < two64 -> at_height a < two64 ->
  notification_offset a h <= d -> h <= at_height a /\ notification_offset a h = at_height a - h.
Proof.
  unfold notification_offset, sub64, wrap64. intros H1 H2 H3.
  destruct (N.le_gt_cases h (at_height a)) as [Hle|Hgt].
  - split; [exact Hle|]. rewrite <- (N.mod_small (at_height a - h) two64) by lia.
    replace (at_height a + (two64 - h)) with (at_height a - h + 1 * two64) by lia.
    apply N.mod_add. discriminate.
  - exfalso. rewrite N.mod_small in H3 by lia. lia.
Qed.

Lemma offset_exact a h : h <= at_height a -> at_height a < two64 ->
  notification_offset a h = at_height a - h.
Proof.
  unfold notification_offset, sub64, wrap64. intros Hle H2.
  rewrite <- (N.mod_small (at_height a - h) two64) by lia.
  replace (at_height a + (two64 - h)) with (at_height a - h + 1 * two64) by lia.
  apply N.mod_add. discriminate.
Qed.

(** Adding a transaction. *)
Lemma AInv_add h0 d tr a t a' c :
  AInv h0 d tr a ->
  (exists h t' atts, c = CInsert h t' atts /\ teq t t') \/ (exists o, c = CComplete o t) ->
  add_tx_to_stxo_cache a t = ADone a' ->
  forall k, teq k t -> forall txs',
  length txs' = S (N.to_nat d) ->
  (forall o layer k atts, txs' !! o = Some layer -> (k, atts) ∈ layer ->
    pend_ok (tr ++ [(c, RTx None true)]) (at_height a) o k atts) ->
  AInv h0 d (tr ++ [(c, RTx None true)])
    (Atomizer txs' (at_complete a' ++ [k]) (at_spent a') (at_height a') (at_depth a')).
Proof.
  intros I Hc H k Hk txs' Hlen Hpend.
  unfold add_tx_to_stxo_cache in H. destruct (at_spent a) as [|l r] eqn:E; [discriminate|].
  injection H as <-. cbn [at_depth at_height at_spent at_txs at_complete].
  assert (Hnb : nblocks (tr ++ [(c, RTx None true)]) = nblocks tr).
  { rewrite nblocks_app. destruct Hc as [[h [t' [atts [-> _]]]]|[o ->]]; cbn [nblocks]; lia. }
  assert (Hst : exists t', step_accepted (c, RTx None true) = [t'] /\ teq t t').
  { destruct Hc as [[h [t' [atts [-> Ht]]]]|[o ->]].
    - exists t'. split; [reflexivity|exact Ht].
    - exists t. split; [reflexivity|apply teq_refl]. }
  destruct Hst as [t' [Hst Htt]].
  assert (Hat : forall h, accepted_at h0 h (tr ++ [(c, RTx None true)]) =
     accepted_at h0 h tr ++ (if h =? h0 + nblocks tr then [t'] else [])).
  { intro h. rewrite accepted_at_app. f_equal. cbn [accepted_at].
    destruct Hc as [[h1 [t1 [atts [-> _]]]]|[o ->]]; rewrite Hst, app_nil_r; reflexivity. }
  constructor; cbn [at_depth at_height at_spent at_txs at_complete].
  - apply (av_depth _ _ _ _ I).
  - rewrite Hnb. apply (av_height _ _ _ _ I).
  - pose proof (av_spent_len _ _ _ _ I) as Hl. rewrite E in Hl. exact Hl.
  - exact Hlen.
  - intros i layer x Hi. destruct i as [|i].
    + injection Hi as <-. rewrite fold_emplace_elem.
      assert (Hl0 : at_spent a !! 0%nat = Some l) by (rewrite E; reflexivity).
      rewrite (av_spent _ _ _ _ I 0%nat l x Hl0). split.
      * intros [[h [u [Hs [Hu Hx]]]]|Hx].
        -- exists h, u. split; [exact Hs|]. split; [|exact Hx]. rewrite Hat.
           apply elem_of_app. left. exact Hu.
        -- exists (at_height a), t'. split; [lia|]. split.
           ++ rewrite Hat. apply elem_of_app. right. rewrite (av_height _ _ _ _ I), N.eqb_refl.
              apply elem_of_list_here.
           ++ destruct Htt as [_ [Hin _]]. rewrite <- Hin. exact Hx.
      * intros [h [u [Hs [Hu Hx]]]]. rewrite Hat in Hu. apply elem_of_app in Hu.
        destruct Hu as [Hu|Hu].
        -- left. exists h, u. tauto.
        -- right. destruct (h =? h0 + nblocks tr); [|inversion Hu].
           apply elem_of_list_singleton in Hu. subst u. destruct Htt as [_ [Hin _]].
           rewrite Hin. exact Hx.
    + cbn in Hi. assert (Hi' : at_spent a !! S i = Some layer) by (rewrite E; exact Hi).
      rewrite (av_spent _ _ _ _ I _ layer x Hi'). split.
      * intros [h [u [Hs [Hu Hx]]]]. exists h, u. split; [exact Hs|]. split; [|exact Hx].
        rewrite Hat. apply elem_of_app. left. exact Hu.
      * intros [h [u [Hs [Hu Hx]]]]. exists h, u. split; [exact Hs|]. split; [|exact Hx].
        rewrite Hat in Hu. apply elem_of_app in Hu. destruct Hu as [Hu|Hu]; [exact Hu|].
        exfalso. pose proof (av_height _ _ _ _ I) as Hht.
        destruct (N.eqb_spec h (h0 + nblocks tr)); [lia|inversion Hu].
  - exact Hpend.
  - rewrite accepted_since_app.
    assert (Hs1 : accepted_since (accepted_since [] tr) [(c, RTx None true)] =
                  accepted_since [] tr ++ [t']).
    { destruct Hc as [[h1 [t1 [atts [-> _]]]]|[o ->]]; cbn [accepted_since]; rewrite Hst; reflexivity. }
    rewrite Hs1. apply Forall2_app; [apply (av_complete _ _ _ _ I)|].
    constructor; [|constructor]. destruct Hk as [Hk1 [Hk2 Hk3]]. destruct Htt as [Ht1 [Ht2 Ht3]].
    split; [congruence|]. split; congruence.
Qed.

(** A step that accepts nothing. *)
Lemma AInv_same h0 d tr a c e txs' :
  AInv h0 d tr a -> c <> CMake ->
  length txs' = S (N.to_nat d) ->
  (forall o layer k atts, txs' !! o = Some layer -> (k, atts) ∈ layer ->
    pend_ok (tr ++ [(c, RTx e false)]) (at_height a) o k atts) ->
  AInv h0 d (tr ++ [(c, RTx e false)])
    (Atomizer txs' (at_complete a) (at_spent a) (at_height a) (at_depth a)).
Proof.
  intros I Hc Hlen Hpend.
  assert (Hs0 : step_accepted (c, RTx e false) = []) by (destruct c; reflexivity).
  assert (Hnb : nblocks (tr ++ [(c, RTx e false)]) = nblocks tr).
  { rewrite nblocks_app. destruct c; [cbn [nblocks]; lia|cbn [nblocks]; lia|congruence]. }
  assert (Hat : forall h, accepted_at h0 h (tr ++ [(c, RTx e false)]) = accepted_at h0 h tr).
  { intro h. rewrite accepted_at_app. cbn [accepted_at].
    destruct c; [| |congruence]; rewrite Hs0; destruct (h =? _); rewrite !app_nil_r; reflexivity. }
  constructor; cbn [at_depth at_height at_spent at_txs at_complete].
  - apply (av_depth _ _ _ _ I).
  - rewrite Hnb. apply (av_height _ _ _ _ I).
  - apply (av_spent_len _ _ _ _ I).
  - exact Hlen.
  - intros i layer x Hi. rewrite (av_spent _ _ _ _ I i layer x Hi).
    split; intros [h [t Ht]]; exists h, t; [rewrite Hat|rewrite Hat in Ht]; exact Ht.
  - exact Hpend.
  - rewrite accepted_since_app.
    assert (Hs1 : accepted_since (accepted_since [] tr) [(c, RTx e false)] = accepted_since [] tr).
    { destruct c; [| |congruence]; cbn [accepted_since]; rewrite Hs0, app_nil_r; reflexivity. }
    rewrite Hs1. apply (av_complete _ _ _ _ I).
Qed.

Lemma pend_extend tr p best (o : nat) k (atts : list N) :
  pend_ok tr best o k atts -> pend_ok (tr ++ [p]) best o k atts.
Proof.
  intros [H1 [H0 H2]]. split; [|split; [exact H0|]].
  - rewrite insert_txs_app. apply elem_of_app. left. exact H1.
  - intros i Hi. destruct (H2 i Hi) as [h [t [as' [r [A [B [C D]]]]]]].
    exists h, t, as', r. split; [apply elem_of_app; left; exact A|]. tauto.
Qed.

(** ** insert_complete *)

(** Full description of insert_complete on a reachable state. *)
Lemma insert_complete_exact h0 d tr a o t :
  AInv h0 d tr a -> at_height a < two64 -> o + d < two64 -> ctx_inputs t <> [] ->
  exists a',
  ((at_height a < o \/ o + d < at_height a) /\
   insert_complete a o t = ADone (a, Some (TxErr (ctx_id t) EStxoRange))) \/
  (o <= at_height a <= o + d /\
   exists ids, insert_complete a o t =
     ADone (match ids with [] => a' | _ => a end,
            match ids with [] => None | _ => Some (TxErr (ctx_id t) (EInputsSpent ids)) end) /\
   at_complete a' = at_complete a ++ [t] /\
   (forall x, x ∈ ids <-> x ∈ ctx_inputs t /\
      exists u, u ∈ accepted_from h0 o tr /\ x ∈ ctx_inputs u) /\
   AInv h0 d (tr ++ [(CComplete o t, RTx None true)]) a').
Proof.
  intros I Hb Ho Hne.
  unfold insert_complete, check_notification_offset.
  rewrite (av_depth _ _ _ _ I), bool_decide_eq_false_2 by exact Hne.
  cbn [negb]. rewrite andb_true_r.
  destruct (N.ltb_spec d (notification_offset a o)) as [Hlt|Hle].
  - exists a. left. split; [|reflexivity].
    destruct (N.le_gt_cases o (at_height a)) as [H|H]; [|left; lia].
    right. rewrite (offset_exact a o H Hb) in Hlt. lia.
  - destruct (offset_small a o d Ho Hb Hle) as [H1 H2].
    destruct (check_stxo_exact h0 d tr a t (notification_offset a o) I Hne Hle ltac:(lia))
      as [ids [E Hids]].
    rewrite H2 in Hids. replace (at_height a - (at_height a - o)) with o in Hids by lia.
    assert (Hadd : exists a1, add_tx_to_stxo_cache a t = ADone a1 /\ at_txs a1 = at_txs a /\
              at_complete a1 = at_complete a).
    { unfold add_tx_to_stxo_cache. pose proof (av_spent_len _ _ _ _ I) as Hl.
      destruct (at_spent a); [cbn in Hl; lia|]. eexists. split; [reflexivity|]. split; reflexivity. }
    destruct Hadd as [a1 [Hadd [Htxs Hcm]]].
    exists (push_complete a1 t). right. split; [lia|]. exists ids.
    split; [|split; [|split; [exact Hids|]]].
    + rewrite E. destruct ids; cbn [abind].
      * rewrite Hadd. reflexivity.
      * reflexivity.
    + cbn [push_complete at_complete]. rewrite Hcm. reflexivity.
    + unfold push_complete.
      refine (AInv_add h0 d tr a t a1 (CComplete o t) I _ Hadd t (teq_refl t)
                (at_txs a1) _ _).
      * right. exists o. reflexivity.
      * rewrite Htxs. apply (av_txs_len _ _ _ _ I).
      * intros o' layer k atts Hl Hk. rewrite Htxs in Hl. apply pend_extend.
        apply (av_pend _ _ _ _ I _ _ _ _ Hl Hk).
Qed.

(** Transactions without inputs. *)
Lemma insert_complete_inputless h0 d tr a o t :
  AInv h0 d tr a -> ctx_inputs t = [] -> notification_offset a o <> two64 - 1 ->
  exists a', insert_complete a o t = ADone (a', None) /\ at_complete a' = at_complete a ++ [t] /\
    AInv h0 d (tr ++ [(CComplete o t, RTx None true)]) a'.
Proof.
  intros I Hin Hoff.
  unfold insert_complete, check_notification_offset.
  rewrite bool_decide_eq_true_2 by exact Hin. cbn [negb]. rewrite andb_false_r.
  unfold check_stxo_cache. rewrite Hin.
  destruct (N.eqb_spec (notification_offset a o) (two64 - 1)); [contradiction|]. cbn [abind].
  assert (Hadd : exists a1, add_tx_to_stxo_cache a t = ADone a1 /\ at_txs a1 = at_txs a /\
              at_complete a1 = at_complete a).
  { unfold add_tx_to_stxo_cache. pose proof (av_spent_len _ _ _ _ I) as Hl.
    destruct (at_spent a); [cbn in Hl; lia|]. eexists. split; [reflexivity|]. split; reflexivity. }
  destruct Hadd as [a1 [Hadd [Htxs Hcm]]]. rewrite Hadd. cbn [abind].
  exists (push_complete a1 t). split; [reflexivity|]. split.
  { cbn [push_complete at_complete]. rewrite Hcm. reflexivity. }
  unfold push_complete.
  refine (AInv_add h0 d tr a t a1 (CComplete o t) I _ Hadd t (teq_refl t)
            (at_txs a1) _ _).
  - right. exists o. reflexivity.
  - rewrite Htxs. apply (av_txs_len _ _ _ _ I).
  - intros o' layer k atts Hl Hk. rewrite Htxs in Hl. apply pend_extend.
    apply (av_pend _ _ _ _ I _ _ _ _ Hl Hk).
Qed.

(** ** insert *)

Lemma pend_find_some {V} (m : list (compact_tx * V)) id k v :
  pend_find m id = Some (k, v) -> (k, v) ∈ m /\ ctx_id k = id.
Proof.
  intro H. apply find_some in H. destruct H as [H1 H2]. cbn in H2.
  apply N.eqb_eq in H2. split; [apply elem_of_list_In; exact H1|exact H2].
Qed.

Lemma pend_set_elem {V} (m : list (compact_tx * V)) id v k v' :
  (k, v') ∈ pend_set m id v ->
  (ctx_id k = id /\ v' = v /\ exists v0, (k, v0) ∈ m) \/ (k, v') ∈ m.
Proof.
  unfold pend_set. intro H. apply elem_of_list_In, in_map_iff in H.
  destruct H as [[k0 v0] [H1 H2]]. cbn [fst] in H1.
  apply elem_of_list_In in H2.
  destruct (N.eqb_spec (ctx_id k0) id) as [Hid|Hid]; injection H1 as <- <-.
  - left. split; [exact Hid|]. split; [reflexivity|]. exists v0. exact H2.
  - right. exact H2.
Qed.

Lemma pend_erase_elem {V} (m : list (compact_tx * V)) id p : p ∈ pend_erase m id -> p ∈ m.
Proof.
  unfold pend_erase. intro H. apply elem_of_list_In, List.filter_In in H.
  apply elem_of_list_In. tauto.
Qed.

Lemma gather_spec layers : forall off id total o0 k0 total' oldest okey,
  gather layers off id total (o0, k0) = (total', (oldest, okey)) ->
  (base.NoDup total -> base.NoDup total') /\
  (forall i, i ∈ total' -> i ∈ total \/ exists (n : nat) layer k (atts : list N), layers !! n = Some layer /\
       (k, atts) ∈ layer /\ ctx_id k = id /\ i ∈ atts /\ off + N.of_nat n <= oldest) /\
  ((oldest = o0 /\ okey = k0 /\ total' = total) \/
   exists (n : nat) layer k (atts : list N), layers !! n = Some layer /\ (k, atts) ∈ layer /\ ctx_id k = id /\
     oldest = off + N.of_nat n /\ okey = Some k).
Proof.
  induction layers as [|m r IH]; intros off id total o0 k0 total' oldest okey H; cbn [gather] in H.
  - injection H as <- <- <-. split; [tauto|]. split; [tauto|]. left. tauto.
  - destruct (pend_find m id) as [[k atts]|] eqn:E.
    + apply pend_find_some in E. destruct E as [Ek Eid].
      destruct (IH _ _ _ _ _ _ _ _ H) as [H1 [H2 H3]]. split; [|split].
      * intro Hn. apply H1. apply fold_emplace_nodup. exact Hn.
      * intros i Hi. destruct (H2 i Hi) as [Hi'|Hi'].
        -- apply fold_emplace_elem in Hi'. destruct Hi' as [Hi'|Hi']; [left; exact Hi'|].
           right. exists 0%nat, m, k, atts. split; [reflexivity|]. split; [exact Ek|].
           split; [exact Eid|]. split; [exact Hi'|].
           destruct H3 as [[-> _]|[n [layer [k' [at' [_ [_ [_ [-> _]]]]]]]]]; lia.
        -- destruct Hi' as [n [layer [k' [at' [A [B [C [D F]]]]]]]].
           right. exists (S n), layer, k', at'. split; [exact A|]. split; [exact B|].
           split; [exact C|]. split; [exact D|]. lia.
      * right. destruct H3 as [[-> [-> _]]|[n [layer [k' [at' [A [B [C [D F]]]]]]]]].
        -- exists 0%nat, m, k, atts. split; [reflexivity|]. split; [exact Ek|].
           split; [exact Eid|]. split; [lia|reflexivity].
        -- exists (S n), layer, k', at'. split; [exact A|]. split; [exact B|].
           split; [exact C|]. split; [lia|exact F].
    + destruct (IH _ _ _ _ _ _ _ _ H) as [H1 [H2 H3]]. split; [exact H1|]. split.
      * intros i Hi. destruct (H2 i Hi) as [Hi'|Hi']; [left; exact Hi'|].
        destruct Hi' as [n [layer [k' [at' [A [B [C [D F]]]]]]]].
        right. exists (S n), layer, k', at'. split; [exact A|]. split; [exact B|].
        split; [exact C|]. split; [exact D|]. lia.
      * destruct H3 as [H3|[n [layer [k' [at' [A [B [C [D F]]]]]]]]]; [left; exact H3|].
        right. exists (S n), layer, k', at'. split; [exact A|]. split; [exact B|].
        split; [exact C|]. split; [lia|exact F].
Qed.

Lemma gather_finds layers : forall off id total o0 k0 total' oldest okey (n : nat) layer k (v : list N),
  gather layers off id total (o0, k0) = (total', (oldest, okey)) ->
  layers !! n = Some layer -> (k, v) ∈ layer -> ctx_id k = id ->
  exists k', okey = Some k'.
Proof.
  assert (Keep : forall ls off id total o0 k0 total' oldest okey,
    gather ls off id total (o0, Some k0) = (total', (oldest, okey)) -> exists k', okey = Some k').
  { induction ls as [|m r IH]; intros off id total o0 k0 total' oldest okey H; cbn [gather] in H.
    - inversion H; subst. eauto.
    - destruct (pend_find m id) as [[k atts]|]; eapply IH; exact H. }
  induction layers as [|m r IH]; intros off id total o0 k0 total' oldest okey n layer k v H Hn Hk Hid;
    cbn [gather] in H; [inversion Hn|].
  destruct (pend_find m id) as [[k1 atts]|] eqn:E.
  - eapply Keep. exact H.
  - destruct n as [|n].
    + injection Hn as <-. exfalso. apply elem_of_list_In in Hk.
      pose proof (find_none _ _ E _ Hk) as Hc. cbn in Hc. apply N.eqb_neq in Hc. contradiction.
    + eapply IH; [exact H|exact Hn|exact Hk|exact Hid].
Qed.

Lemma insert_step h0 d tr a h t atts a' e :
  AInv h0 d tr a -> at_height a < two64 -> h + d < two64 ->
  ids_honest (insert_txs tr ++ [t]) ->
  insert a h t atts = ADone (a', e) ->
  let more := len (at_complete a) <? len (at_complete a') in
  let tr' := tr ++ [(CInsert h t atts, RTx e more)] in
  AInv h0 d tr' a' /\
  (more = true -> e = None /\ exists oldest total,
     base.NoDup total /\ length total = length (ctx_inputs t) /\
     oldest <= at_height a <= oldest + d /\
     (forall i, i ∈ total -> exists h' t' as' r,
        (CInsert h' t' as', r) ∈ tr' /\ ctx_id t' = ctx_id t /\ i ∈ as' /\
        oldest <= h' <= at_height a) /\
     (forall x u, x ∈ ctx_inputs t -> u ∈ accepted_from h0 oldest tr -> x ∉ ctx_inputs u)).
Proof.
  intros I Hb Hh Hon H. unfold insert in H.
  assert (Hsame : forall e c, c <> CMake -> AInv h0 d (tr ++ [(c, RTx e false)]) a).
  { intros e0 c Hc. pose proof (AInv_same h0 d tr a c e0 (at_txs a) I Hc (av_txs_len _ _ _ _ I)) as X.
    destruct a as [x1 x2 x3 x4 x5]. cbn in X. apply X.
    intros o layer k at' Ho Hk. apply pend_extend. exact (av_pend _ _ _ _ I _ _ _ _ Ho Hk). }
  destruct (check_notification_offset a (notification_offset a h) t) as [e0|] eqn:Ech.
  { injection H as <- <-. cbn zeta. rewrite N.ltb_irrefl. split; [|discriminate].
    apply Hsame. discriminate. }
  set (off := notification_offset a h) in *.
  destruct (N.leb_spec (len (at_txs a)) off) as [|Hlt]; [discriminate|].
  assert (Hoffd : off <= d).
  { unfold len in Hlt. rewrite (av_txs_len _ _ _ _ I) in Hlt. lia. }
  destruct (offset_small a h d Hh Hb Hoffd) as [Hha Hoff]. fold off in Hoff.
  destruct (at_txs a !! N.to_nat off) as [m|] eqn:Em; [|discriminate].
  set (c := CInsert h t atts) in *.
  (* the entry that is written *)
  assert (Hkm : exists key m',
     match pend_find m (ctx_id t) with
     | None => (t, m ++ [(t, atts)])
     | Some (k, old) => (k, pend_set m (ctx_id t) (fold_left emplace_set atts old))
     end = (key, m') /\ teq key t /\ (exists v, (key, v) ∈ m') /\
     forall r k v, (k, v) ∈ m' -> pend_ok (tr ++ [(c, r)]) (at_height a) (N.to_nat off) k v).
  { destruct (pend_find m (ctx_id t)) as [[k old]|] eqn:Ef.
    - exists k, (pend_set m (ctx_id t) (fold_left emplace_set atts old)). split; [reflexivity|].
      apply pend_find_some in Ef. destruct Ef as [Hk Hid].
      pose proof (av_pend _ _ _ _ I _ _ _ _ Em Hk) as Pk. split; [|split].
      + split; [exact Hid|]. apply Hon; [| |exact Hid].
        * apply elem_of_app. left. apply Pk.
        * apply elem_of_app. right. apply elem_of_list_here.
      + exists (fold_left emplace_set atts old). unfold pend_set.
        apply elem_of_list_In, in_map_iff. exists (k, old). cbn [fst].
        rewrite Hid, N.eqb_refl. split; [reflexivity|]. apply elem_of_list_In. exact Hk.
      + intros r k' v Hk'. apply pend_set_elem in Hk'. destruct Hk' as [[Hid' [-> [v0 Hv0]]]|Hk'].
        * pose proof (av_pend _ _ _ _ I _ _ _ _ Em Hv0) as Pv0.
          apply pend_extend with (p := (c, r)) in Pv0. destruct Pv0 as [Q1 [Q2 Q3]].
          apply pend_extend with (p := (c, r)) in Pk. destruct Pk as [R1 [R2 R3]].
          split; [exact Q1|]. split; [exact Q2|]. intros i Hi.
          apply fold_emplace_elem in Hi. destruct Hi as [Hi|Hi].
          -- destruct (R3 i Hi) as [h1 [t1 [as1 [r1 [A [B C]]]]]].
             exists h1, t1, as1, r1. split; [exact A|]. split; [congruence|exact C].
          -- exists h, t, atts, r. split; [apply elem_of_app; right; apply elem_of_list_here|].
             split; [congruence|]. split; [exact Hi|]. rewrite N2Nat.id. lia.
        * apply pend_extend. exact (av_pend _ _ _ _ I _ _ _ _ Em Hk').
    - exists t, (m ++ [(t, atts)]). split; [reflexivity|]. split; [apply teq_refl|]. split.
      + exists atts. apply elem_of_app. right. apply elem_of_list_here.
      + intros r k v Hk. apply elem_of_app in Hk. destruct Hk as [Hk|Hk].
        * apply pend_extend. exact (av_pend _ _ _ _ I _ _ _ _ Em Hk).
        * apply elem_of_list_singleton in Hk. injection Hk as -> ->.
          split; [|split].
          -- rewrite insert_txs_app. apply elem_of_app. right. apply elem_of_list_here.
          -- exists h. rewrite N2Nat.id. lia.
          -- intros i Hi. exists h, t, atts, r.
             split; [apply elem_of_app; right; apply elem_of_list_here|].
             split; [reflexivity|]. split; [exact Hi|]. rewrite N2Nat.id. lia. }
  destruct Hkm as [key [m' [Ekm [Htk [[vk Hvk] Hm']]]]]. rewrite Ekm in H. clear Ekm.
  set (txs1 := <[N.to_nat off := m']> (at_txs a)) in *.
  assert (Hlen1 : length txs1 = S (N.to_nat d)).
  { unfold txs1. rewrite insert_length. apply (av_txs_len _ _ _ _ I). }
  assert (Hp1 : forall r o layer k v, txs1 !! o = Some layer -> (k, v) ∈ layer ->
     pend_ok (tr ++ [(c, r)]) (at_height a) o k v).
  { intros r o layer k v Ho Hk. unfold txs1 in Ho. apply list_lookup_insert_Some in Ho.
    destruct Ho as [[<- [<- _]]|[_ Ho]].
    - apply Hm'. exact Hk.
    - apply pend_extend. exact (av_pend _ _ _ _ I _ _ _ _ Ho Hk). }
  cbn [at_txs at_complete at_spent at_height at_depth] in H.
  assert (Htake : firstn (S (N.to_nat (at_depth a))) txs1 = txs1).
  { apply firstn_all2. rewrite Hlen1, (av_depth _ _ _ _ I). lia. }
  rewrite Htake in H.
  destruct (gather txs1 0 (ctx_id t) [] (0, None)) as [total [oldest okey]] eqn:Eg.
  assert (Ha1 : forall e, AInv h0 d (tr ++ [(c, RTx e false)])
     (Atomizer txs1 (at_complete a) (at_spent a) (at_height a) (at_depth a))).
  { intro e0. apply AInv_same; [exact I|discriminate|exact Hlen1|]. apply Hp1. }
  destruct (N.eqb_spec (len total) (len (ctx_inputs key))) as [Hcnt|Hcnt].
  2:{ injection H as <- <-. cbn zeta. cbn [at_complete]. rewrite N.ltb_irrefl.
      split; [apply Ha1|discriminate]. }
  destruct (gather_spec _ _ _ _ _ _ _ _ _ Eg) as [G1 [G2 G3]].
  assert (Hm1 : txs1 !! N.to_nat off = Some m').
  { unfold txs1. apply list_lookup_insert. rewrite (av_txs_len _ _ _ _ I). lia. }
  destruct (gather_finds _ _ _ _ _ _ _ _ _ _ _ _ _ Eg Hm1 Hvk (proj1 Htk)) as [kold Hkold].
  destruct G3 as [[_ [G3 _]]|[n [layer [k2 [at2 [L1 [L2 [L3 [L4 L5]]]]]]]]]; [congruence|].
  rewrite Hkold in L5. injection L5 as <-. subst okey. rewrite N.add_0_l in L4.
  assert (Hn : (n < S (N.to_nat d))%nat) by (rewrite <- Hlen1; eapply lookup_lt_Some; exact L1).
  destruct (Hp1 (RTx None true) n layer kold at2 L1 L2) as [K1 [[hold K2] K3]].
  assert (Htk2 : teq kold t).
  { split; [exact L3|]. apply Hon; [| |exact L3].
    - rewrite insert_txs_app in K1. exact K1.
    - apply elem_of_app. right. apply elem_of_list_here. }
  change (check_stxo_cache (Atomizer txs1 (at_complete a) (at_spent a) (at_height a) (at_depth a)) key oldest)
    with (check_stxo_cache a key oldest) in H.
  destruct (check_stxo_cache a key oldest) as [oe| |] eqn:Est; cbn [abind] in H; [|discriminate|discriminate].
  destruct oe as [e1|].
  { injection H as <- <-. cbn zeta. cbn [at_complete]. rewrite N.ltb_irrefl.
    split; [apply Ha1|discriminate]. }
  set (a1 := Atomizer txs1 (at_complete a) (at_spent a) (at_height a) (at_depth a)) in *.
  destruct (add_tx_to_stxo_cache a1 key) as [a2| |] eqn:Ead; cbn [abind] in H; [|discriminate|discriminate].
  injection H as <- <-.
  assert (E2 : exists sp, add_tx_to_stxo_cache a key = ADone
       (Atomizer (at_txs a) (at_complete a) sp (at_height a) (at_depth a)) /\
       a2 = Atomizer txs1 (at_complete a) sp (at_height a) (at_depth a)).
  { unfold add_tx_to_stxo_cache in Ead |- *. unfold a1 in Ead. cbn [at_spent at_txs at_complete at_height at_depth] in Ead.
    destruct (at_spent a) as [|l r]; [discriminate|]. injection Ead as <-. eexists. split; reflexivity. }
  destruct E2 as [sp [E2 ->]]. cbn [push_complete at_txs at_complete at_spent at_height at_depth].
  assert (Hmore : (len (at_complete a) <? len (at_complete a ++ [kold])) = true).
  { apply N.ltb_lt. unfold len. rewrite app_length. cbn [length]. lia. }
  cbn zeta. rewrite Hmore. split.
  - pose proof (AInv_add h0 d tr a key
      (Atomizer (at_txs a) (at_complete a) sp (at_height a) (at_depth a)) c I) as X.
    specialize (X ltac:(left; exists h, t, atts; split; [reflexivity|exact Htk]) E2 kold).
    cbn [at_txs at_complete at_spent at_height at_depth] in X.
    apply X.
    + destruct Htk as [A1 [A2 A3]], Htk2 as [B1 [B2 B3]]. split; [congruence|]. split; congruence.
    + cbn [at_txs]. rewrite map_length. exact Hlen1.
    + intros o lay k v Ho Hk. cbn [at_txs] in Ho. rewrite list_lookup_fmap in Ho.
      destruct (txs1 !! o) as [lay0|] eqn:E0; [|discriminate]. injection Ho as <-.
      apply pend_erase_elem in Hk. exact (Hp1 _ _ _ _ _ E0 Hk).
  - intros _. split; [reflexivity|]. exists (at_height a - oldest), total.
    assert (Hold : oldest <= at_height a) by lia.
    split; [apply G1; constructor|]. split.
    { destruct Htk as [_ [Hin _]]. rewrite <- Hin. unfold len in Hcnt. lia. }
    split; [lia|]. split.
    + intros i Hi. destruct (G2 i Hi) as [Hi'|[n2 [lay2 [k2 [at2' [M1 [M2 [M3 [M4 M5]]]]]]]]];
        [inversion Hi'|].
      destruct (Hp1 (RTx None true) _ _ _ _ M1 M2) as [N1 [_ N3]].
      destruct (N3 i M4) as [h1 [t1 [as1 [r1 [P1 [P2 [P3 P4]]]]]]].
      exists h1, t1, as1, r1. split; [exact P1|]. split; [congruence|]. split; [exact P3|]. lia.
    + intros x u Hx Hu Hxu.
      assert (Hne : ctx_inputs key <> []).
      { destruct Htk as [_ [Hin _]]. rewrite Hin. intro Hc. rewrite Hc in Hx. inversion Hx. }
      destruct (check_stxo_exact h0 d tr a key oldest I Hne ltac:(lia) Hold) as [ids [Ei Hids]].
      rewrite Ei in Est. destruct ids as [|x0 ids]; [|discriminate].
      assert (Hin : x ∈ @nil N).
      { apply Hids. destruct Htk as [_ [Hin' _]]. rewrite Hin'. split; [exact Hx|].
        exists u. split; [exact Hu|exact Hxu]. }
      inversion Hin.
Qed.
