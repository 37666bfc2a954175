(** Proofs about the wallet. *)
From Coq Require Import NArith List Bool Lia Permutation.
From stdpp Require Import base decidable list gmap.
From Verif Require Import Base CodecModel CodecSpec CodecProofs TxModel TxProofs MsgModel MsgProofs ValidationModel ValidationSpec
  ValidationProofs ValidationCorollaries WalletModel WalletSpec.
Import ListNotations.
Open Scope N_scope.

Lemma two64_pow : two64 = 2 ^ 64. Proof. reflexivity. Qed.
Lemma wrap64_small x : x < 2 ^ 64 -> wrap64 x = x.
Proof. intros. unfold wrap64. apply N.mod_small. now rewrite two64_pow. Qed.
Lemma add64_small x y : x + y < 2 ^ 64 -> add64 x y = x + y.
Proof. apply wrap64_small. Qed.
Lemma sub64_small x y : y <= x -> x < 2 ^ 64 -> sub64 x y = x - y.
Proof.
  intros. unfold sub64, wrap64. rewrite two64_pow.
  replace (x + (2 ^ 64 - y)) with (x - y + 1 * 2 ^ 64) by lia.
  rewrite N.mod_add by lia. apply N.mod_small. lia.
Qed.
Lemma mul64_small x y : x * y < 2 ^ 64 -> mul64 x y = x * y.
Proof. apply wrap64_small. Qed.

Arguments worth : simpl never.
(* sums *)
Lemma worth_app a b : worth (a ++ b) = worth a + worth b.
Proof. unfold worth. induction a; cbn [app map total]; [lia|]. rewrite IHa. lia. Qed.
Lemma worth_cons a b : worth (a :: b) = coin_value a + worth b.
Proof. reflexivity. Qed.
Lemma worth_perm a b : Permutation a b -> worth a = worth b.
Proof. induction 1; rewrite ?worth_cons in *; lia. Qed.
Lemma outpoints_app a b : outpoints (a ++ b) = outpoints a ++ outpoints b.
Proof. apply map_app. Qed.
Lemma outpoints_perm a b : Permutation a b -> Permutation (outpoints a) (outpoints b).
Proof. apply Permutation_map. Qed.
Lemma in_outpoints p l : p ∈ outpoints l <-> exists c, In c l /\ in_prevout c = p.
Proof.
  unfold outpoints. rewrite elem_of_list_In, in_map_iff. split; intros (c & ? & ?); exists c; auto.
Qed.

(* the set *)
Lemma us_mem_spec x s : us_mem x s = true <-> in_prevout x ∈ outpoints s.
Proof.
  unfold us_mem. rewrite existsb_exists, in_outpoints.
  split; intros (c & ? & H2); exists c; split; auto; apply bool_decide_eq_true in H2 || apply bool_decide_eq_true; auto.
Qed.
Lemma us_mem_false x s : us_mem x s = false <-> in_prevout x ∉ outpoints s.
Proof. rewrite <- us_mem_spec. destruct (us_mem x s); split; congruence. Qed.
Lemma us_place_perm x s : Permutation (us_place x s) (x :: s).
Proof.
  induction s as [|y r IH]; cbn; [reflexivity|]. destruct (cmp_input x y); [reflexivity|].
  rewrite IH. apply perm_swap.
Qed.
Lemma us_erase_notin x s : in_prevout x ∉ outpoints s -> us_erase x s = s.
Proof.
  induction s as [|y r IH]; cbn; [reflexivity|]. intros H.
  rewrite bool_decide_eq_false_2.
  - cbn. f_equal. apply IH. intros H'. apply H. now right.
  - intros E. apply H. rewrite <- E. left.
Qed.
Lemma us_erase_perm x s t : Permutation (x :: t) s -> base.NoDup (outpoints s) ->
  Permutation t (us_erase x s).
Proof.
  intros HP ND.
  assert (HP2 : Permutation (us_erase x (x :: t)) (us_erase x s)).
  { unfold us_erase. clear ND. induction HP; cbn; auto.
    - destruct (negb _); auto.
    - destruct (negb _), (negb _); auto using perm_swap.
    - etransitivity; eauto. }
  rewrite <- HP2.
  assert (E : us_erase x (x :: t) = us_erase x t) by (unfold us_erase; cbn; now rewrite bool_decide_eq_true_2 by reflexivity).
  rewrite E, us_erase_notin; [reflexivity|].
  rewrite <- (outpoints_perm _ _ HP) in ND. cbn in ND. now apply NoDup_cons in ND as [? _].
Qed.

(* remove *)
Lemma remove_app gone a b : remove gone (a ++ b) = remove gone a ++ remove gone b.
Proof. apply List.filter_app. Qed.
Lemma remove_none gone l : (forall c, In c l -> in_prevout c ∉ gone) -> remove gone l = l.
Proof.
  induction l as [|c r IH]; cbn; [reflexivity|]. intros H. rewrite bool_decide_eq_false_2 by (apply H; auto).
  cbn. f_equal. apply IH. auto.
Qed.
Lemma remove_all gone l : (forall c, In c l -> in_prevout c ∈ gone) -> remove gone l = [].
Proof.
  induction l as [|c r IH]; cbn; [reflexivity|]. intros H. rewrite bool_decide_eq_true_2 by (apply H; auto).
  cbn. apply IH. auto.
Qed.
Lemma remove_perm gone a b : Permutation a b -> Permutation (remove gone a) (remove gone b).
Proof.
  unfold remove. induction 1; cbn; auto.
  - destruct (negb _); auto.
  - destruct (negb _), (negb _); auto using perm_swap.
  - etransitivity; eauto.
Qed.
Lemma NoDup_outpoints_app a b : base.NoDup (outpoints (a ++ b)) ->
  forall c d, In c a -> In d b -> in_prevout c <> in_prevout d.
Proof.
  rewrite outpoints_app. intros ND c d Hc Hd E. apply NoDup_app in ND as (_ & ND & _).
  apply (ND (in_prevout c)); apply in_outpoints; eauto.
Qed.
Lemma remove_split a b held : Permutation held (a ++ b) -> base.NoDup (outpoints held) ->
  Permutation (remove (outpoints a) held) b.
Proof.
  intros HP ND. rewrite (outpoints_perm _ _ HP) in ND.
  rewrite (remove_perm _ _ _ HP), remove_app.
  rewrite remove_all, remove_none; [reflexivity| |].
  - intros c Hc Hi. apply in_outpoints in Hi as (d & Hd & E).
    eapply (NoDup_outpoints_app _ _ ND d c); eauto.
  - intros c Hc. apply in_outpoints. eauto.
Qed.

Lemma interval_step from to : from < to -> interval from to = from :: interval (from + 1) to.
Proof.
  intros H. unfold interval. replace (N.to_nat (to - from)) with (S (N.to_nat (to - (from + 1)))) by lia.
  cbn [seq map]. rewrite N.add_0_r. f_equal. rewrite <- seq_shift, map_map.
  apply map_ext. intros. lia.
Qed.
Lemma interval_empty from to : to <= from -> interval from to = [].
Proof. intros H. unfold interval. replace (N.to_nat (to - from)) with 0%nat by lia. reflexivity. Qed.
Lemma interval_app from mid to : from <= mid -> mid <= to ->
  interval from to = interval from mid ++ interval mid to.
Proof.
  intros H1 H2. unfold interval.
  replace (N.to_nat (to - from)) with (N.to_nat (mid - from) + N.to_nat (to - mid))%nat by lia.
  rewrite seq_app, map_app. f_equal. cbn [Nat.add].
  replace (seq (N.to_nat (mid - from)) (N.to_nat (to - mid)))
    with (map (fun k => N.to_nat (mid - from) + k)%nat (seq 0 (N.to_nat (to - mid)))).
  - rewrite map_map. apply map_ext. intros. lia.
  - generalize (N.to_nat (to - mid)). generalize (N.to_nat (mid - from)). intros a n.
    assert (H : forall z, map (fun k => a + k)%nat (seq z n) = seq (a + z) n).
    { induction n as [|n IH]; intros; cbn; [reflexivity|]. f_equal. rewrite IH. f_equal. lia. }
    rewrite H. f_equal. lia.
Qed.
Lemma interval_length from to : length (interval from to) = N.to_nat (to - from).
Proof. unfold interval. now rewrite map_length, seq_length. Qed.

Section P.
  Variable sha : bytes -> hash.
  Variable pub_of : N -> N.
  Variable ssign : N -> hash -> N.

  Notation seed_coins := (seed_coins sha).
  Notation unused_seeds := (unused_seeds sha).

  Lemma seed_coins_worth c v f t : worth (seed_coins c v f t) = (t - f) * v.
  Proof.
    unfold WalletSpec.seed_coins, worth. rewrite map_map. cbn.
    assert (H : forall l : list N, total (map (fun _ => v) l) = len l * v).
    { induction l; cbn [map total]; [reflexivity|]. rewrite IHl, len_cons. lia. }
    rewrite H. unfold len. rewrite interval_length. f_equal. lia.
  Qed.
  Lemma seed_coins_app c v f m t : f <= m -> m <= t ->
    seed_coins c v f t = seed_coins c v f m ++ seed_coins c v m t.
  Proof. intros. unfold WalletSpec.seed_coins. rewrite <- map_app. now rewrite <- interval_app. Qed.
  Lemma seed_coins_empty c v f t : t <= f -> seed_coins c v f t = [].
  Proof. intros. unfold WalletSpec.seed_coins. now rewrite interval_empty. Qed.
  Lemma seeded_input_coin w i : seeded_input sha w i = seed_coin sha (w_seed_commit w) (w_seed_value w) i.
  Proof. reflexivity. Qed.

  (** Invariant. *)
  Record inv (w : wallet) (held : list input) : Prop := {
    i_held : Permutation held (w_utxos w ++ unused_seeds w);
    i_nodup : base.NoDup (outpoints held);
    i_queue : Permutation (w_queue w) (w_utxos w);
    i_bal : w_balance w = worth (w_utxos w);
    i_range : w_from w <= w_to w /\ w_to w < 2 ^ 64;
    i_worth : worth held < 2 ^ 64 }.

  Definition same_coins (w w' : wallet) : Prop :=
    w_balance w' = w_balance w /\ w_utxos w' = w_utxos w /\ w_from w' = w_from w /\
    w_to w' = w_to w /\ w_seed_value w' = w_seed_value w /\ w_seed_commit w' = w_seed_commit w /\
    w_queue w' = w_queue w.
  Lemma inv_same w w' held : same_coins w w' -> inv w held -> inv w' held.
  Proof.
    intros (? & ? & ? & ? & ? & ? & ?) []. unfold WalletSpec.unused_seeds in *.
    split; unfold WalletSpec.unused_seeds;
      repeat match goal with H : _ w' = _ |- _ => rewrite H; clear H end; auto.
  Qed.
  Lemma same_refl w : same_coins w w. Proof. unfold same_coins. auto 10. Qed.
  Lemma same_trans a b c : same_coins a b -> same_coins b c -> same_coins a c.
  Proof. unfold same_coins. intros (?&?&?&?&?&?&?) (?&?&?&?&?&?&?). repeat split; congruence. Qed.
  Lemma same_add_key w sk : same_coins w (add_key sha pub_of w sk).
  Proof. unfold same_coins; cbn; auto 10. Qed.
  Lemma same_gen w r : same_coins w (fst (generate_key sha pub_of w r)).
  Proof. unfold generate_key. destruct (_ <? _); cbn; [apply same_refl|apply same_add_key]. Qed.
  Lemma same_mint w rs v : same_coins w (fst (mint_outputs sha pub_of w rs v)).
  Proof.
    revert w. induction rs as [|r rs IH]; intros w; cbn; [apply same_refl|].
    destruct (generate_key sha pub_of w r) as [w1 pk] eqn:G. specialize (IH w1).
    destruct (mint_outputs sha pub_of w1 rs v) as [w2 os]; cbn in *.
    eapply same_trans; [|exact IH]. pose proof (same_gen w r) as S. now rewrite G in S.
  Qed.

  (* a wallet at rest: its coins, without the numbers *)
  Lemma worth_utxos w held : inv w held -> worth (w_utxos w) + (w_to w - w_from w) * w_seed_value w = worth held.
  Proof.
    intros I. rewrite (worth_perm _ _ (i_held _ _ I)), worth_app. unfold WalletSpec.unused_seeds.
    now rewrite seed_coins_worth.
  Qed.
  Lemma utxos_le w held : inv w held -> worth (w_utxos w) <= worth held.
  Proof. intros I. rewrite (worth_perm _ _ (i_held _ _ I)), worth_app. lia. Qed.
  Lemma balance_held w held : inv w held -> balance w = worth held.
  Proof.
    intros I. pose proof (worth_utxos _ _ I) as W. pose proof (i_worth _ _ I). destruct (i_range _ _ I).
    unfold balance. rewrite (i_bal _ _ I). destruct (N.eqb_spec (w_from w) (w_to w)) as [E|NE].
    - rewrite E, N.sub_diag, N.mul_0_l, N.add_0_r in W. exact W.
    - rewrite sub64_small by lia. rewrite mul64_small by lia. rewrite add64_small; lia.
  Qed.
  Lemma count_held w held : inv w held -> len held < 2 ^ 64 -> count w = len held.
  Proof.
    intros I L. destruct (i_range _ _ I).
    assert (E : len held = len (w_utxos w) + (w_to w - w_from w)).
    { unfold len. rewrite (Permutation_length (i_held _ _ I)), app_length.
      unfold WalletSpec.unused_seeds, WalletSpec.seed_coins. rewrite map_length, interval_length. lia. }
    unfold count. destruct (N.eqb_spec (w_from w) (w_to w)) as [E'|NE]; [lia|].
    rewrite sub64_small by lia. rewrite add64_small; lia.
  Qed.

  (* credits *)
  Lemma credit_inv w held i : inv w held -> in_prevout i ∉ outpoints (unused_seeds w) ->
    worth (credit held i) < 2 ^ 64 -> inv (credit_one w i) (credit held i) /\ unused_seeds (credit_one w i) = unused_seeds w.
  Proof.
    intros I Hs Hw. unfold credit_one, us_insert, credit in *.
    assert (Hm : in_prevout i ∈ outpoints held <-> in_prevout i ∈ outpoints (w_utxos w)).
    { rewrite (outpoints_perm _ _ (i_held _ _ I)), outpoints_app, elem_of_app. tauto. }
    destruct (us_mem i (w_utxos w)) eqn:M.
    - apply us_mem_spec in M. rewrite bool_decide_eq_true_2 by tauto. auto.
    - apply us_mem_false in M. rewrite bool_decide_eq_false_2 in * by tauto. split; [|reflexivity].
      split; cbn [w_balance w_utxos w_from w_to w_seed_value w_seed_commit w_queue with_coins].
      + unfold WalletSpec.unused_seeds; cbn. rewrite us_place_perm. cbn. constructor. apply (i_held _ _ I).
      + cbn. apply NoDup_cons. split; [tauto|]. apply (i_nodup _ _ I).
      + rewrite us_place_perm, (i_queue _ _ I). symmetry. apply Permutation_cons_append.
      + rewrite (worth_perm _ _ (us_place_perm _ _)), worth_cons, (i_bal _ _ I).
        rewrite worth_cons in Hw. pose proof (utxos_le _ _ I). rewrite add64_small; lia.
      + apply (i_range _ _ I).
      + exact Hw.
  Qed.
  Lemma worth_credit held i : worth held <= worth (credit held i).
  Proof. unfold credit. destruct (bool_decide _); rewrite ?worth_cons; lia. Qed.
  Lemma worth_credits l held : worth held <= worth (fold_left credit l held).
  Proof.
    revert held. induction l; intros; cbn [fold_left]; [apply N.le_refl|]. etransitivity; [apply worth_credit|apply IHl].
  Qed.
  Lemma credits_inv l : forall w held, inv w held ->
    (forall i, In i l -> in_prevout i ∉ outpoints (unused_seeds w)) ->
    worth (fold_left credit l held) < 2 ^ 64 ->
    inv (fold_left credit_one l w) (fold_left credit l held) /\
    unused_seeds (fold_left credit_one l w) = unused_seeds w.
  Proof.
    induction l as [|i r IH]; intros w held I Hs Hw; cbn [fold_left] in *; [auto|].
    destruct (credit_inv w held i I) as [I1 E1]; auto.
    { apply Hs. now left. }
    { eapply N.le_lt_trans; [apply (worth_credits r)|exact Hw]. }
    destruct (IH _ _ I1) as [I2 E2]; auto.
    { intros j Hj. rewrite E1. apply Hs. now right. }
    split; [exact I2|congruence].
  Qed.
  Lemma debits_nop l : forall w held, inv w held ->
    (forall i, In i l -> in_prevout i ∉ outpoints held) -> fold_left debit_one l w = w.
  Proof.
    induction l as [|i r IH]; intros w held I H; cbn; [reflexivity|].
    assert (E : debit_one w i = w).
    { unfold debit_one. replace (us_mem i (w_utxos w)) with false; [reflexivity|]. symmetry. apply us_mem_false.
      intros Hi. apply (H i); [now left|]. rewrite (outpoints_perm _ _ (i_held _ _ I)), outpoints_app, elem_of_app. auto. }
    rewrite E. apply (IH w held I). intros. apply H. now right.
  Qed.

  Lemma outputs_from_received w tx os i0 :
    outputs_from sha tx (fun o => is_ours w (out_commit o)) (N.of_nat i0) os
    = flat_map (fun i => match nth_error os (i - i0) with
                         | Some o => if is_ours w (out_commit o)
                                     then [Input (OutPoint (tx_id sha tx) (N.of_nat i)) o] else []
                         | None => [] end) (seq i0 (length os)).
  Proof.
    revert i0. induction os as [|o r IH]; intros i0; [reflexivity|].
    cbn [outputs_from length seq flat_map]. rewrite Nat.sub_diag. cbn [nth_error]. f_equal.
    replace (N.of_nat i0 + 1) with (N.of_nat (S i0)) by lia. rewrite IH.
    rewrite !flat_map_concat_map. f_equal. apply map_ext_in. intros a Ha. apply in_seq in Ha.
    replace (a - i0)%nat with (S (a - S i0))%nat by lia. reflexivity.
  Qed.
  Lemma own_outputs_received w tx : own_outputs sha w tx = received sha w tx.
  Proof.
    unfold own_outputs, received. change 0 with (N.of_nat 0). rewrite outputs_from_received.
    rewrite !flat_map_concat_map. f_equal. apply map_ext. intros. now rewrite Nat.sub_0_r.
  Qed.

  (* taking coins *)
  Lemma take_seeds_spec w n : forall idx total amount,
    idx + N.of_nat n < 2 ^ 64 -> total + N.of_nat n * w_seed_value w < 2 ^ 64 ->
    exists k, (k <= n)%nat /\
      take_seeds sha w n idx total amount
      = (seed_coins (w_seed_commit w) (w_seed_value w) idx (idx + N.of_nat k), idx + N.of_nat k,
         total + N.of_nat k * w_seed_value w) /\
      ((k < n)%nat -> amount <= total + N.of_nat k * w_seed_value w) /\
      ((0 < k)%nat -> total + N.of_nat (k - 1) * w_seed_value w < amount).
  Proof.
    induction n as [|n IH]; intros idx total amount H1 H2; cbn [take_seeds].
    - exists 0%nat. split; [lia|]. rewrite seed_coins_empty by lia. cbn. rewrite N.mul_0_l, !N.add_0_r. split; [reflexivity|]. lia.
    - destruct (N.ltb_spec total amount) as [L|L].
      + rewrite add64_small by lia. rewrite add64_small by lia.
        destruct (IH (idx + 1) (total + w_seed_value w) amount) as (k & K1 & K2 & K3 & K4); [lia|lia|].
        exists (S k). split; [lia|]. rewrite K2. split; [|split; [intros; rewrite Nat2N.inj_succ; specialize (K3 ltac:(lia)); lia|]].
        * replace (idx + N.of_nat (S k)) with (idx + 1 + N.of_nat k) by lia.
          rewrite (seed_coins_app _ _ idx (idx + 1) (idx + 1 + N.of_nat k)) by lia.
          unfold WalletSpec.seed_coins at 2. rewrite interval_step by lia. rewrite interval_empty by lia. cbn [map app].
          rewrite seeded_input_coin. f_equal. lia.
        * intros _. destruct k as [|k]; [cbn; lia|].
          specialize (K4 ltac:(lia)). replace (S (S k) - 1)%nat with (S k) by lia.
          replace (S k - 1)%nat with k in K4 by lia. lia.
      + exists 0%nat. split; [lia|]. rewrite seed_coins_empty by lia. cbn. rewrite N.mul_0_l, !N.add_0_r. split; [reflexivity|]. lia.
  Qed.

  Lemma take_queue_spec q : forall total amount, total + worth q < 2 ^ 64 ->
    exists k, (k <= length q)%nat /\
      take_queue q total amount = (firstn k q, total + worth (firstn k q)) /\
      ((k < length q)%nat -> amount <= total + worth (firstn k q)).
  Proof.
    induction q as [|u r IH]; intros t amount H; cbn [take_queue].
    - exists 0%nat. cbn. rewrite N.add_0_r. split; [lia|]. split; [reflexivity|lia].
    - rewrite worth_cons in H. destruct (N.ltb_spec t amount).
      + rewrite add64_small by lia. destruct (IH (t + coin_value u) amount) as (k & K1 & K2 & K3); [lia|].
        exists (S k). cbn [length firstn]. rewrite K2, worth_cons. split; [lia|].
        split; [f_equal; lia|]. intros. specialize (K3 ltac:(lia)). lia.
      + exists 0%nat. cbn. rewrite N.add_0_r. split; [lia|]. split; [reflexivity|lia].
  Qed.

  Lemma drop_used_spec k : forall w, (k <= length (w_queue w))%nat ->
    Permutation (w_queue w) (w_utxos w) -> base.NoDup (outpoints (w_utxos w)) ->
    w_balance w = worth (w_utxos w) -> worth (w_utxos w) < 2 ^ 64 ->
    let w' := drop_used k w in
    w_queue w' = skipn k (w_queue w) /\ Permutation (w_queue w') (w_utxos w') /\
    w_balance w' = worth (w_utxos w') /\
    w_from w' = w_from w /\ w_to w' = w_to w /\ w_seed_value w' = w_seed_value w /\
    w_seed_commit w' = w_seed_commit w /\ w_keys w' = w_keys w /\ w_pubkeys w' = w_pubkeys w /\
    w_progs w' = w_progs w.
  Proof.
    induction k as [|k IH]; intros w L P ND B W; cbn [drop_used].
    - cbn. auto 20.
    - destruct (w_queue w) as [|u q] eqn:Q; [cbn in L; lia|]. cbn [length] in L.
      assert (P2 : Permutation q (us_erase u (w_utxos w))) by (apply us_erase_perm; auto).
      assert (Wu : worth (w_utxos w) = coin_value u + worth (us_erase u (w_utxos w))).
      { rewrite <- (worth_perm _ _ P), worth_cons. f_equal. now apply worth_perm. }
      edestruct IH as (E1 & E2 & E3 & E4 & E5 & E6 & E7 & E8 & E9 & E10);
        [| | | | |split; [exact E1|]; split; [exact E2|]; split; [exact E3|];
          split; [exact E4|]; split; [exact E5|]; split; [exact E6|]; split; [exact E7|]; auto].
      + cbn. lia.
      + exact P2.
      + rewrite <- (outpoints_perm _ _ P) in ND. cbn [outpoints map] in ND. apply NoDup_cons in ND as [_ ND].
        change (base.NoDup (outpoints (us_erase u (w_utxos w)))). now rewrite <- (outpoints_perm _ _ P2).
      + cbn. rewrite B. rewrite sub64_small by lia. lia.
      + cbn. lia.
  Qed.

  (** The state after the coins of [ss ++ us] were taken. *)
  Lemma taken_inv w held ks k : inv w held ->
    N.of_nat ks <= w_to w - w_from w -> (k <= length (w_queue w))%nat ->
    let from' := w_from w + N.of_nat ks in
    let ins := seed_coins (w_seed_commit w) (w_seed_value w) (w_from w) from' ++ firstn k (w_queue w) in
    let w' := drop_used k (with_coins w (w_balance w) (w_utxos w) from' (w_queue w)) in
    inv w' (remove (outpoints ins) held) /\
    Permutation held (ins ++ remove (outpoints ins) held) /\
    w_keys w' = w_keys w /\ w_pubkeys w' = w_pubkeys w /\ w_progs w' = w_progs w.
  Proof.
    intros I Hks Hk from' ins w'. destruct (i_range _ _ I) as [R1 R2].
    assert (ND : base.NoDup (outpoints (w_utxos w))).
    { pose proof (i_nodup _ _ I) as ND. rewrite (outpoints_perm _ _ (i_held _ _ I)), outpoints_app in ND.
      now apply NoDup_app in ND as [? _]. }
    pose proof (worth_utxos _ _ I) as Wh. pose proof (i_worth _ _ I) as Wb.
    destruct (drop_used_spec k (with_coins w (w_balance w) (w_utxos w) from' (w_queue w)))
      as (E1 & E2 & E3 & E4 & E5 & E6 & E7 & E8 & E9 & E10); cbn;
      [exact Hk|apply (i_queue _ _ I)|exact ND|apply (i_bal _ _ I)|lia|].
    fold w' in E1, E2, E3, E4, E5, E6, E7, E8, E9, E10. cbn in E1, E4, E5, E6, E7, E8, E9, E10.
    assert (PH : Permutation held (ins ++ (w_utxos w' ++ unused_seeds w'))).
    { rewrite (i_held _ _ I). unfold WalletSpec.unused_seeds at 2. rewrite E4, E5, E6, E7.
      rewrite <- E2, E1. unfold WalletSpec.unused_seeds.
      rewrite (seed_coins_app _ _ (w_from w) from' (w_to w)) by (unfold from'; lia).
      rewrite <- (i_queue _ _ I). rewrite <- (firstn_skipn k (w_queue w)) at 1. unfold ins.
      set (A := firstn k (w_queue w)). set (B := skipn k (w_queue w)).
      set (C := seed_coins _ _ _ from'). set (D := seed_coins _ _ from' _).
      rewrite <- !app_assoc. rewrite !app_assoc. rewrite (Permutation_app_comm (A ++ B) C).
      rewrite !app_assoc. reflexivity. }
    assert (PR : Permutation (remove (outpoints ins) held) (w_utxos w' ++ unused_seeds w')).
    { apply remove_split; [exact PH|apply (i_nodup _ _ I)]. }
    assert (PH2 : Permutation held (ins ++ remove (outpoints ins) held)) by now rewrite PR.
    split; [|auto].
    split.
    - exact PR.
    - pose proof (i_nodup _ _ I) as NDh. rewrite (outpoints_perm _ _ PH2), outpoints_app in NDh.
      now apply NoDup_app in NDh as (_ & _ & ?).
    - exact E2.
    - exact E3.
    - rewrite E4, E5. unfold from'. lia.
    - rewrite (worth_perm _ _ PH2), worth_app in Wb. lia.
  Qed.

  Lemma seeds_left_eq w held : inv w held -> N.of_nat (seeds_left w) = w_to w - w_from w.
  Proof. intros I. destruct (i_range _ _ I). unfold seeds_left. rewrite sub64_small by lia. lia. Qed.

  Lemma accumulate_spec w held amount : inv w held ->
    match accumulate_inputs sha w amount with
    | (w', None) => w' = w /\ worth held < amount
    | (w', Some (ins, wits, t)) =>
        inv w' (remove (outpoints ins) held) /\ Permutation held (ins ++ remove (outpoints ins) held) /\
        w_keys w' = w_keys w /\ w_pubkeys w' = w_pubkeys w /\ w_progs w' = w_progs w /\
        t = worth ins /\ amount <= t /\ length wits = length ins
    end.
  Proof.
    intros I. unfold accumulate_inputs. pose proof (seeds_left_eq _ _ I) as SL.
    pose proof (worth_utxos _ _ I) as W. pose proof (i_worth _ _ I) as WB. destruct (i_range _ _ I) as [R1 R2].
    destruct (take_seeds_spec w (seeds_left w) (w_from w) 0 amount) as (ks & K1 & -> & K3 & _); [lia|rewrite SL; lia|].
    pose proof (worth_perm _ _ (i_queue _ _ I)) as WQ.
    assert (N.of_nat ks * w_seed_value w <= (w_to w - w_from w) * w_seed_value w) by (apply N.mul_le_mono_r; lia).
    destruct (take_queue_spec (w_queue w) (0 + N.of_nat ks * w_seed_value w) amount) as (k & Q1 & -> & Q3); [lia|].
    pose proof (taken_inv w held ks k I ltac:(lia) Q1) as T. cbn zeta in T.
    set (ins := seed_coins _ _ _ _ ++ _) in *.
    assert (Wi : worth ins = 0 + N.of_nat ks * w_seed_value w + worth (firstn k (w_queue w))).
    { unfold ins. rewrite worth_app, seed_coins_worth. f_equal. f_equal. lia. }
    destruct (N.ltb_spec (0 + N.of_nat ks * w_seed_value w + worth (firstn k (w_queue w))) amount) as [L|L].
    - split; [reflexivity|].
      assert (ks = seeds_left w) by (destruct (Nat.eq_dec ks (seeds_left w)); [auto|]; specialize (K3 ltac:(lia)); lia).
      assert (k = length (w_queue w)) by (destruct (Nat.eq_dec k (length (w_queue w))); [auto|]; specialize (Q3 ltac:(lia)); lia).
      subst. rewrite firstn_all in L. lia.
    - rewrite firstn_length, Nat.min_l by lia.
      destruct T as (T1 & T2 & T3 & T4 & T5).
      repeat (split; [assumption || (symmetry; assumption)|]). now rewrite map_length.
  Qed.

  (* keys *)
  Record kinv (w : wallet) : Prop := {
    k_pub : forall pk sk, w_keys w !! pk = Some sk -> pub_of sk = pk;
    k_prog : forall (c : N) pk, w_progs w !! c = Some pk ->
               c = commit_of sha pk /\ exists sk, w_keys w !! (pk : N) = Some sk;
    k_ours : forall pk, In pk (w_pubkeys w) -> is_ours w (commit_of sha pk) = true;
    k_dom : forall pk sk, w_keys w !! pk = Some sk -> In pk (w_pubkeys w);
    k_size : (size (w_keys w) <= length (w_pubkeys w))%nat }.
  Lemma kinv_empty : kinv w_empty.
  Proof.
    split; cbn; intros; try contradiction; try (rewrite lookup_empty in *; discriminate).
    rewrite map_size_empty. lia.
  Qed.
  Definition same_keys (w w' : wallet) : Prop :=
    w_keys w' = w_keys w /\ w_pubkeys w' = w_pubkeys w /\ w_progs w' = w_progs w.
  Lemma kinv_same w w' : same_keys w w' -> kinv w -> kinv w'.
  Proof.
    intros (E1 & E2 & E3) []. split; unfold is_ours in *; rewrite ?E1, ?E2, ?E3; auto.
  Qed.
  Lemma same_keys_refl w : same_keys w w. Proof. unfold same_keys. auto. Qed.

  Lemma is_ours_add_key w sk c : is_ours w c = true -> is_ours (add_key sha pub_of w sk) c = true.
  Proof.
    unfold is_ours, add_key; cbn. intros H. destruct (w_progs w !! (c : N)) eqn:E; [|discriminate].
    destruct (w_progs w !! (commit_of sha (pub_of sk) : N)) eqn:E2; [now rewrite E|].
    destruct (decide (commit_of sha (pub_of sk) = c)) as [<-|NE].
    - now rewrite lookup_insert.
    - now rewrite lookup_insert_ne, E.
  Qed.
  Lemma is_ours_added w sk : is_ours (add_key sha pub_of w sk) (commit_of sha (pub_of sk)) = true.
  Proof.
    unfold is_ours, add_key; cbn.
    destruct (w_progs w !! (commit_of sha (pub_of sk) : N)) eqn:E2; [now rewrite E2|]. now rewrite lookup_insert.
  Qed.
  Lemma kinv_add_key w sk : kinv w -> kinv (add_key sha pub_of w sk).
  Proof.
    intros K. split.
    - cbn. intros pk s. destruct (w_keys w !! (pub_of sk : N)) eqn:E; [apply (k_pub _ K)|].
      destruct (decide (pub_of sk = pk)) as [<-|NE].
      + rewrite lookup_insert. congruence.
      + rewrite lookup_insert_ne by auto. apply (k_pub _ K).
    - cbn. intros c pk H.
      assert (H2 : forall pk', (exists s, w_keys w !! (pk' : N) = Some s) ->
        exists s, (match w_keys w !! pub_of sk with Some _ => w_keys w | None => <[pub_of sk := sk]> (w_keys w) end) !! (pk' : N) = Some s).
      { intros pk' [s Hs]. destruct (w_keys w !! (pub_of sk : N)) eqn:E; [eauto|].
        exists s. rewrite lookup_insert_ne; [auto|congruence]. }
      assert (H3 : exists s, (match w_keys w !! pub_of sk with Some _ => w_keys w | None => <[pub_of sk := sk]> (w_keys w) end) !! (pub_of sk : N) = Some s).
      { destruct (w_keys w !! (pub_of sk : N)) eqn:E; [eauto|]. rewrite lookup_insert; eauto. }
      destruct (w_progs w !! (commit_of sha (pub_of sk) : N)) eqn:E2.
      + destruct (k_prog _ K _ _ H). auto.
      + destruct (decide (commit_of sha (pub_of sk) = c)) as [<-|NE].
        * rewrite lookup_insert in H. injection H as <-. auto.
        * rewrite lookup_insert_ne in H by auto. destruct (k_prog _ K _ _ H). auto.
    - intros pk H. cbn in H. apply in_app_iff in H as [H|[<-|[]]].
      + apply is_ours_add_key. now apply (k_ours _ K).
      + apply is_ours_added.
    - cbn. intros pk s H. apply in_app_iff. destruct (w_keys w !! (pub_of sk : N)) eqn:E; [left; eapply (k_dom _ K); eauto|].
      destruct (decide (pub_of sk = pk)) as [<-|NE]; [right; now left|].
      rewrite lookup_insert_ne in H by auto. left; eapply (k_dom _ K); eauto.
    - cbn. rewrite app_length; cbn. pose proof (k_size _ K).
      destruct (w_keys w !! (pub_of sk : N)) eqn:E; [lia|]. rewrite map_size_insert_None by auto. lia.
  Qed.
  Lemma gen_spec w r w' pk : kinv w -> generate_key sha pub_of w r = (w', pk) ->
    kinv w' /\ same_coins w w' /\ is_ours w' (commit_of sha pk) = true /\
    (forall c, is_ours w c = true -> is_ours w' c = true).
  Proof.
    intros K. pose proof (same_gen w r) as S. unfold generate_key in *. destruct (N.ltb_spec max_keys (N.of_nat (size (w_keys w)))) as [L|L].
    - injection 1 as <- <-. split; [auto|]. split; [auto|]. split; [|auto].
      apply (k_ours _ K). apply nth_In. pose proof (k_size _ K).
      assert (rnd_lt : r mod N.of_nat (size (w_keys w)) < N.of_nat (size (w_keys w))) by (apply N.mod_lt; lia).
      lia.
    - injection 1 as <- <-. split; [now apply kinv_add_key|]. split; [apply S|]. split; [apply is_ours_added|].
      intros. now apply is_ours_add_key.
  Qed.
  Lemma mint_kinv rs v : forall w, kinv w -> kinv (fst (mint_outputs sha pub_of w rs v)).
  Proof.
    induction rs as [|r rs IH]; intros w K; cbn; [auto|].
    destruct (generate_key sha pub_of w r) as [w1 pk] eqn:G.
    destruct (gen_spec _ _ _ _ K G) as [K1 _]. specialize (IH w1 K1).
    now destruct (mint_outputs sha pub_of w1 rs v).
  Qed.

  (* signing *)
  Lemma sign_all_ok w msg is : forall ws, kinv w -> exists out, sign_all ssign w msg is ws = Some out.
  Proof.
    induction is as [|i r IH]; intros ws K; cbn; [eauto|]. destruct ws as [|wit ws]; [eauto|].
    destruct (IH ws K) as [o ->]. unfold sign_one.
    destruct (w_progs w !! (out_commit (in_data i) : N)) as [pk|] eqn:P; [|eauto].
    destruct (k_prog _ K _ _ P) as [_ [sk ->]]. eauto.
  Qed.
  Lemma sign_ok w tx : kinv w -> exists ws, sign sha ssign w tx = Some (FullTx (tx_inputs tx) (tx_outputs tx) ws).
  Proof. intros K. unfold sign. destruct (sign_all_ok w (tx_id sha tx) (tx_inputs tx) (resize_wit (tx_witness tx) (length (tx_inputs tx))) K) as [o ->]. eauto. Qed.
  Lemma finish_ok w s tx : kinv w -> exists ws, finish_tx sha ssign w s tx = Built (FullTx (tx_inputs tx) (tx_outputs tx) ws).
  Proof.
    intros K. unfold finish_tx. destruct s.
    - destruct (sign_ok w tx K) as [ws ->]. eauto.
    - destruct tx; eauto.
  Qed.
  Lemma resize_length ws n : length (resize_wit ws n) = n.
  Proof. unfold resize_wit. rewrite app_length, firstn_length, repeat_length. lia. Qed.

  Lemma sign_all_auth pk_parse schnorr w tx is : forall ws out, keys_sound pub_of ssign pk_parse schnorr -> kinv w ->
    sign_all ssign w (tx_id sha tx) is ws = Some out -> length ws = length is ->
    Forall (fun i => is_spendable w i = true) is ->
    length out = length is /\
    forall k inp wit, nth_error is k = Some inp -> nth_error out k = Some wit ->
      authorises sha pk_parse schnorr tx (out_commit (in_data inp)) wit.
  Proof.
    induction is as [|i r IH]; intros ws out S K H L F; cbn in H.
    - destruct ws; injection H as <-; split; auto; intros [|k]; discriminate.
    - destruct ws as [|wit0 ws]; [discriminate|]. inversion F; subst.
      unfold sign_one in H. unfold is_spendable, is_ours in H2.
      destruct (w_progs w !! (out_commit (in_data i) : N)) as [pk|] eqn:P; [|discriminate].
      destruct (k_prog _ K _ _ P) as [Hc [sk Hk]]. unfold hash in *. rewrite Hk in H.
      destruct (sign_all ssign w (tx_id sha tx) r ws) as [r'|] eqn:R; [|discriminate]. injection H as <-.
      destruct (IH _ _ S K R) as [L' A]; [cbn in L; lia|assumption|].
      split; [cbn; lia|]. intros [|k] inp wit; cbn; [|apply A].
      injection 1 as <-. injection 1 as <-. rewrite Hc.
      pose proof (k_pub _ K _ _ Hk) as Hp. destruct (S sk (tx_id sha tx)) as (S1 & S2 & S3 & S4). rewrite Hp in *.
      apply p2pk_spendable; auto.
  Qed.

  Lemma tx_id_wit ins outs ws ws' : tx_id sha (FullTx ins outs ws) = tx_id sha (FullTx ins outs ws').
  Proof. reflexivity. Qed.

  Lemma signed_accepted pk_parse schnorr w tx t' : keys_sound pub_of ssign pk_parse schnorr -> kinv w ->
    finish_tx sha ssign w true tx = Built t' ->
    tx_inputs tx <> [] -> tx_outputs tx <> [] -> base.NoDup (outpoints (tx_inputs tx)) ->
    Forall (fun i => is_spendable w i = true /\ 1 <= coin_value i) (tx_inputs tx) ->
    Forall (fun o => 1 <= out_value o) (tx_outputs tx) ->
    worth (tx_inputs tx) = total (map out_value (tx_outputs tx)) -> worth (tx_inputs tx) < 2 ^ 64 ->
    check_tx sha pk_parse schnorr t' = Accepted.
  Proof.
    intros S K H Hi Ho ND F1 F2 B W. unfold finish_tx, sign in H.
    destruct (sign_all ssign w (tx_id sha tx) (tx_inputs tx) _) as [ws|] eqn:SA; [|discriminate]. injection H as <-.
    destruct (sign_all_auth pk_parse schnorr w tx _ _ _ S K SA) as [L A];
      [apply resize_length|eapply Forall_impl; [exact F1|cbn; intros ? []; auto]|].
    assert (Hle : forall v l, In v l -> v <= total l).
    { induction l; cbn; [contradiction|]. intros [->|]; [lia|]. specialize (IHl H). lia. }
    apply check_tx_accepts.
    - split; apply Forall_forall; intros v Hv; apply elem_of_list_In in Hv; apply Hle in Hv; unfold in_values, out_values in Hv; cbn in Hv;
        change (total (map (fun i => out_value (in_data i)) (tx_inputs tx))) with (worth (tx_inputs tx)) in Hv; lia.
    - split; cbn; auto.
      + intros i j a b Ha Hb E.
        pose proof (proj1 (NoDup_ListNoDup (outpoints (tx_inputs tx))) ND) as ND2.
        rewrite NoDup_nth_error in ND2. apply ND2.
        * unfold outpoints. rewrite map_length. apply nth_error_Some. congruence.
        * unfold outpoints. rewrite !nth_error_map, Ha, Hb. cbn. congruence.
      + intros v Hv. unfold in_values in Hv. cbn in Hv. apply in_map_iff in Hv as (i & <- & Hi').
        rewrite Forall_forall in F1. apply F1. now apply elem_of_list_In.
      + intros v Hv. unfold out_values in Hv. cbn in Hv. apply in_map_iff in Hv as (i & <- & Hi').
        rewrite Forall_forall in F2. apply F2. now apply elem_of_list_In.
  Qed.

  (* the calls *)
  (** What a built transaction does to the coins. *)
  Record spends (w : wallet) (held : list input) (w' : wallet) (ins : list input) : Prop := {
    sp_inv : inv w' (remove (outpoints ins) held);
    sp_perm : Permutation held (ins ++ remove (outpoints ins) held);
    sp_kinv : kinv w';
    sp_ours : forall c, is_ours w c = true -> is_ours w' c = true }.

  Lemma change_spec w1 held' amount t rnd (w2 : wallet) change : kinv w1 -> inv w1 held' -> amount <= t -> t < 2 ^ 64 ->
    (if amount <? t then
       let '(w2, pk) := generate_key sha pub_of w1 rnd in (w2, [Output (commit_of sha pk) (sub64 t amount)])
     else (w1, [])) = (w2, change) ->
    kinv w2 /\ inv w2 held' /\ change_ok w2 change /\ t = amount + total (map out_value change) /\
    (forall c, is_ours w1 c = true -> is_ours w2 c = true).
  Proof.
    intros K I L B H. destruct (N.ltb_spec amount t) as [Lt|Ge].
    - destruct (generate_key sha pub_of w1 rnd) as [w2' pk] eqn:G. injection H as <- <-.
      destruct (gen_spec _ _ _ _ K G) as (K2 & S2 & O2 & M2).
      split; [auto|]. split; [eapply inv_same; eauto|].
      rewrite sub64_small by lia. split; [|cbn; split; [lia|auto]].
      right. eexists. split; [reflexivity|]. cbn. split; [lia|auto].
    - injection H as <- <-. split; [auto|]. split; [auto|]. split; [now left|]. cbn. split; [lia|auto].
  Qed.

  Lemma send_to_spec w held amount payee s rnd w' r : inv w held -> kinv w -> amount < 2 ^ 64 ->
    send_to sha pub_of ssign w amount payee s rnd = (w', r) ->
    (r = NoTx /\ w' = w /\ worth held < amount) \/
    (exists ins change wits0 wits,
      amount <= worth held /\
      finish_tx sha ssign w' s (FullTx ins (Output (commit_of sha payee) amount :: change) wits0)
      = Built (FullTx ins (Output (commit_of sha payee) amount :: change) wits) /\
      r = Built (FullTx ins (Output (commit_of sha payee) amount :: change) wits) /\
      spends w held w' ins /\ change_ok w' change /\
      worth ins = amount + total (map out_value change)).
  Proof.
    intros I K A H. unfold send_to in H. pose proof (accumulate_spec w held amount I) as AS.
    destruct (accumulate_inputs sha w amount) as [w1 [[[ins wits0] t]|]].
    - destruct AS as (I1 & P & E1 & E2 & E3 & -> & Ge & _).
      assert (K1 : kinv w1) by (eapply kinv_same; [|exact K]; split; auto).
      assert (Wi : worth held = worth ins + worth (remove (outpoints ins) held)) by now rewrite (worth_perm _ _ P), worth_app.
      pose proof (i_worth _ _ I) as Wh.
      assert (O1 : forall c, is_ours w c = true -> is_ours w1 c = true) by (unfold is_ours; rewrite E3; auto).
      destruct (if amount <? worth ins then
         let '(w2, pk) := generate_key sha pub_of w1 rnd in (w2, [Output (commit_of sha pk) (sub64 (worth ins) amount)])
         else (w1, [])) as [w2 change] eqn:C.
      destruct (change_spec w1 _ amount (worth ins) rnd w2 change K1 I1 Ge ltac:(lia) C) as (K2 & I2 & C2 & T2 & O2).
      assert (H' : (w2, finish_tx sha ssign w2 s (FullTx ins (Output (commit_of sha payee) amount :: change) wits0)) = (w', r)).
      { rewrite <- H. destruct (amount <? worth ins); [destruct (generate_key sha pub_of w1 rnd)|]; injection C as <- <-; reflexivity. }
      injection H' as <- <-. right.
      destruct (finish_ok w2 s (FullTx ins (Output (commit_of sha payee) amount :: change) wits0) K2) as [wits F]. cbn [tx_inputs tx_outputs] in F.
      exists ins, change, wits0, wits. split; [lia|]. split; [exact F|]. split; [exact F|].
      split; [|split; auto]. split; auto.
    - destruct AS as [-> L]. injection H as <- <-. left. auto.
  Qed.

  Lemma fan_spec w held n v payee s rnd w' r : inv w held -> kinv w -> n * v < 2 ^ 64 ->
    fan sha pub_of ssign w n v payee s rnd = (w', r) ->
    (r = NoTx /\ w' = w /\ worth held < n * v) \/
    (exists ins change wits0 wits,
      n * v <= worth held /\
      let outs := change ++ repeat (Output (commit_of sha payee) v) (N.to_nat n) in
      finish_tx sha ssign w' s (FullTx ins outs wits0) = Built (FullTx ins outs wits) /\
      r = Built (FullTx ins outs wits) /\
      spends w held w' ins /\ change_ok w' change /\
      worth ins = n * v + total (map out_value change)).
  Proof.
    intros I K A H. unfold fan in H. rewrite mul64_small in H by auto.
    pose proof (accumulate_spec w held (n * v) I) as AS.
    destruct (accumulate_inputs sha w (n * v)) as [w1 [[[ins wits0] t]|]].
    - destruct AS as (I1 & P & E1 & E2 & E3 & -> & Ge & _).
      assert (K1 : kinv w1) by (eapply kinv_same; [|exact K]; split; auto).
      assert (Wi : worth held = worth ins + worth (remove (outpoints ins) held)) by now rewrite (worth_perm _ _ P), worth_app.
      pose proof (i_worth _ _ I) as Wh.
      assert (O1 : forall c, is_ours w c = true -> is_ours w1 c = true) by (unfold is_ours; rewrite E3; auto).
      destruct (if n * v <? worth ins then
         let '(w2, pk) := generate_key sha pub_of w1 rnd in (w2, [Output (commit_of sha pk) (sub64 (worth ins) (n * v))])
         else (w1, [])) as [w2 change] eqn:C.
      destruct (change_spec w1 _ (n * v) (worth ins) rnd w2 change K1 I1 Ge ltac:(lia) C) as (K2 & I2 & C2 & T2 & O2).
      injection H as <- <-. right.
      match goal with |- context [FullTx ins ?o wits0] => idtac | _ => idtac end.
      destruct (finish_ok w2 s (FullTx ins (change ++ repeat (Output (commit_of sha payee) v) (N.to_nat n)) wits0) K2) as [wits F]. cbn [tx_inputs tx_outputs] in F.
      exists ins, change, wits0, wits. split; [lia|]. split; [exact F|]. split; [exact F|].
      split; [|split; auto]. split; auto.
    - destruct AS as [-> L]. injection H as <- <-. left. auto.
  Qed.

  Lemma first_seeds_spec w n : forall idx t,
    idx + N.of_nat n < 2 ^ 64 -> t + N.of_nat n * w_seed_value w < 2 ^ 64 ->
    first_seeds sha w n idx t
    = (seed_coins (w_seed_commit w) (w_seed_value w) idx (idx + N.of_nat n), idx + N.of_nat n,
       t + N.of_nat n * w_seed_value w).
  Proof.
    induction n as [|n IH]; intros idx t H1 H2; cbn [first_seeds].
    - rewrite seed_coins_empty by lia. cbn. now rewrite N.mul_0_l, !N.add_0_r.
    - rewrite !add64_small by lia. rewrite IH by lia.
      replace (idx + N.of_nat (S n)) with (idx + 1 + N.of_nat n) by lia.
      rewrite (seed_coins_app _ _ idx (idx + 1) (idx + 1 + N.of_nat n)) by lia.
      unfold WalletSpec.seed_coins at 2. rewrite interval_step by lia. rewrite interval_empty by lia. cbn [map app].
      rewrite seeded_input_coin. f_equal. lia.
  Qed.
  Lemma fold_worth l : forall t, t + worth l < 2 ^ 64 -> fold_left (fun t u => add64 t (coin_value u)) l t = t + worth l.
  Proof.
    induction l as [|u r IH]; intros t H; cbn [fold_left]; [now rewrite N.add_0_r|].
    rewrite worth_cons in *. rewrite add64_small by lia. rewrite IH by lia. lia.
  Qed.
  Lemma split_spec n c v t : (0 < n)%nat -> N.of_nat n * v <= t -> t < 2 ^ 64 ->
    exists last, split_outputs n c v t = repeat (Output c v) (n - 1) ++ [Output c last] /\
      v <= last /\ N.of_nat (n - 1) * v + last = t.
  Proof.
    revert t. induction n as [|n IH]; intros t H1 H2 H3; [lia|]. destruct n as [|n].
    - exists t. cbn. split; [reflexivity|]. lia.
    - assert (v <= t) by (rewrite Nat2N.inj_succ in H2; lia).
      destruct (IH (t - v)) as (l & E & Ge & T); [lia|lia|lia|].
      exists l. cbn [split_outputs]. rewrite sub64_small by lia.
      change (match n with 0%nat => [Output c (t - v)] | S _ => Output c v :: split_outputs n c v (sub64 (t - v) v) end)
        with (split_outputs (S n) c v (t - v)).
      rewrite E. replace (S (S n) - 1)%nat with (S (S n - 1)) by lia. split; [reflexivity|].
      split; [auto|]. replace (S n - 1)%nat with n in * by lia. lia.
  Qed.

  Lemma send_n_spec w held ic oc payee s w' r : inv w held -> kinv w ->
    0 < ic < 2 ^ 64 -> 0 < oc < 2 ^ 64 -> len held < 2 ^ 64 ->
    send_n sha ssign w ic oc payee s = (w', r) ->
    (r = NoTx /\ w' = w /\
      (len held < ic \/
       exists ins rest, Permutation held (ins ++ rest) /\ len ins = ic /\ worth ins < oc /\ 1 < oc)) \/
    (exists ins wits0 wits val last,
      let outs := repeat (Output (commit_of sha payee) val) (N.to_nat (oc - 1)) ++ [Output (commit_of sha payee) last] in
      finish_tx sha ssign w' s (FullTx ins outs wits0) = Built (FullTx ins outs wits) /\
      r = Built (FullTx ins outs wits) /\ len ins = ic /\
      spends w held w' ins /\ val <= last /\ (1 <= val \/ oc = 1) /\ val = worth ins / oc /\
      worth ins = (oc - 1) * val + last).
  Proof.
    intros I K Hi Ho HL H. unfold send_n in H. destruct (i_range _ _ I) as [R1 R2].
    pose proof (worth_utxos _ _ I) as W. pose proof (i_worth _ _ I) as WB. pose proof (seeds_left_eq _ _ I) as SL.
    assert (EL : len held = len (w_utxos w) + (w_to w - w_from w)).
    { unfold len. rewrite (Permutation_length (i_held _ _ I)), app_length.
      unfold WalletSpec.unused_seeds, WalletSpec.seed_coins. rewrite map_length, interval_length. lia. }
    assert (EC : sub64 (add64 (len (w_utxos w)) (w_to w)) (w_from w) = len held).
    { unfold add64, sub64, wrap64. rewrite two64_pow.
      rewrite N.add_mod_idemp_l by lia.
      replace (len (w_utxos w) + w_to w + (2 ^ 64 - w_from w)) with (len held + 1 * 2 ^ 64) by lia.
      rewrite N.mod_add by lia. apply N.mod_small. lia. }
    rewrite EC in H. destruct (N.ltb_spec (len held) ic) as [L|L].
    { injection H as <- <-. left. auto. }
    set (ns := Nat.min (seeds_left w) (N.to_nat ic)) in *.
    assert (Hns : N.of_nat ns <= w_to w - w_from w) by lia.
    assert (N.of_nat ns * w_seed_value w <= (w_to w - w_from w) * w_seed_value w) by (apply N.mul_le_mono_r; lia).
    rewrite first_seeds_spec in H by lia.
    set (k := (N.to_nat ic - ns)%nat) in *.
    assert (LQ : length (w_queue w) = length (w_utxos w)) by apply (Permutation_length (i_queue _ _ I)).
    assert (Hk : (k <= length (w_queue w))%nat) by (unfold len in *; lia).
    pose proof (worth_perm _ _ (i_queue _ _ I)) as WQ.
    assert (WF : worth (firstn k (w_queue w)) <= worth (w_queue w)).
    { rewrite <- (firstn_skipn k (w_queue w)) at 2. rewrite worth_app. lia. }
    rewrite fold_worth in H by lia.
    pose proof (taken_inv w held ns k I Hns Hk) as T. cbn zeta in T.
    set (ins := seed_coins _ _ _ _ ++ _) in *.
    assert (Wi : worth ins = 0 + N.of_nat ns * w_seed_value w + worth (firstn k (w_queue w))).
    { unfold ins. rewrite worth_app, seed_coins_worth. f_equal. f_equal. lia. }
    rewrite <- Wi in H. destruct T as (T1 & T2 & T3 & T4 & T5).
    assert (Li : len ins = ic).
    { unfold len, ins, WalletSpec.seed_coins. rewrite app_length, map_length, interval_length, firstn_length. lia. }
    assert (Wl : worth ins <= worth held) by (rewrite (worth_perm _ _ T2), worth_app; lia).
    destruct (N.eqb_spec oc 0); [lia|].
    destruct ((worth ins / oc =? 0) && (1 <? oc)) eqn:Z.
    { injection H as <- <-. left. split; [auto|]. split; [auto|]. right.
      apply andb_true_iff in Z as [Z1 Z2]. apply N.eqb_eq in Z1. apply N.ltb_lt in Z2.
      exists ins, (remove (outpoints ins) held). split; [auto|]. split; [auto|]. split; [|auto].
      apply N.div_small_iff in Z1; lia. }
    rewrite firstn_length, Nat.min_l in H by lia. injection H as <- <-.
    set (w1 := drop_used _ _) in *. set (val := worth ins / oc) in *.
    assert (K1 : kinv w1) by (eapply kinv_same; [|exact K]; split; auto).
    assert (DV : oc * val <= worth ins) by (apply N.mul_div_le; lia).
    destruct (split_spec (N.to_nat oc) (commit_of sha payee) val (worth ins)) as (last & E & Ge & TT); [lia|lia|lia|].
    rewrite E. replace (N.to_nat oc - 1)%nat with (N.to_nat (oc - 1)) in * by lia.
    right.
    match goal with |- context [finish_tx sha ssign w1 s (FullTx ins ?o ?w0)] =>
      destruct (finish_ok w1 s (FullTx ins o w0) K1) as [wits F]; cbn [tx_inputs tx_outputs] in F;
      exists ins, w0, wits, val, last end.
    cbn zeta. split; [exact F|]. split; [exact F|]. split; [auto|]. split.
    { split; auto. unfold is_ours. rewrite T5. auto. }
    split; [auto|]. split; [|split; [reflexivity|lia]].
    apply andb_false_iff in Z as [Z|Z]; [apply N.eqb_neq in Z; lia|apply N.ltb_ge in Z; lia].
  Qed.

  (* confirming *)
  Lemma confirm_inv w held credits debits : inv w held -> kinv w ->
    (forall i, In i credits -> in_prevout i ∉ outpoints (unused_seeds w)) ->
    (forall i, In i debits -> in_prevout i ∉ outpoints (fold_left credit credits held)) ->
    worth (fold_left credit credits held) < 2 ^ 64 ->
    exists w', update_balance w credits debits = (w', true) /\
      inv w' (fold_left credit credits held) /\ kinv w' /\ w_progs w' = w_progs w.
  Proof.
    intros I K H1 H2 H3. destruct (credits_inv credits w held I H1 H3) as [I1 _].
    unfold update_balance. rewrite (debits_nop debits _ _ I1 H2).
    eexists. rewrite (proj2 (Nat.eqb_eq _ _) (Permutation_length (i_queue _ _ I1))). split; [reflexivity|].
    split; [exact I1|].
    assert (SK : same_keys w (fold_left credit_one credits w)).
    { clear. revert w. induction credits as [|i r IH]; intros w; cbn; [apply same_keys_refl|].
      destruct (IH (credit_one w i)) as (E1 & E2 & E3).
      assert (S : same_keys w (credit_one w i)).
      { unfold credit_one, us_insert. destruct (us_mem _ _); unfold same_keys; cbn; auto. }
      destruct S as (S1 & S2 & S3). unfold same_keys. repeat split; congruence. }
    split; [eapply kinv_same; eauto|apply SK].
  Qed.
  Lemma remove_notin gone l : (forall p, p ∈ gone -> p ∉ outpoints l) -> remove gone l = l.
  Proof.
    intros H. apply remove_none. intros c Hc Hg. apply (H _ Hg). apply in_outpoints. eauto.
  Qed.

  Lemma seed_inv w held c v f t : inv w held -> seeds_fresh sha w held c v f t ->
    worth (seed_coins c v f t ++ held) < 2 ^ 64 ->
    inv (seed_readonly w c v f t) (seed_coins c v f t ++ held).
  Proof.
    intros I (F1 & F2 & F3 & F4) W. split; cbn.
    - unfold WalletSpec.unused_seeds. cbn. rewrite Permutation_app_comm. apply Permutation_app_tail.
      rewrite (i_held _ _ I). unfold WalletSpec.unused_seeds. rewrite seed_coins_empty by lia. now rewrite app_nil_r.
    - exact F4.
    - apply (i_queue _ _ I).
    - apply (i_bal _ _ I).
    - auto.
    - exact W.
  Qed.

  (* restarting *)
  Lemma load_keys_spec ks : List.NoDup (map fst ks) ->
    let '(m, pks, ps) := load_keys sha ks in
    m = list_to_map ks /\ pks = map fst ks /\
    (forall (c : N) pk, ps !! c = Some pk -> c = commit_of sha pk /\ In pk (map fst ks)) /\
    (forall pk, In pk (map fst ks) -> exists pk', ps !! commit_of sha pk = Some pk').
  Proof.
    unfold load_keys.
    assert (G : forall (ks : list (N * N)) (m : gmap N N) (pks : list N) (ps : gmap N N),
      List.NoDup (map fst ks) ->
      (forall (c : N) pk, ps !! c = Some pk -> c = commit_of sha pk /\ In pk pks) ->
      (forall pk, In pk pks -> exists pk', ps !! commit_of sha pk = Some pk') ->
      (forall pk, In pk (map fst ks) -> m !! pk = None) ->
      let '(m', pks', ps') := fold_left (load_key sha) ks (m, pks, ps) in
      m' = list_to_map ks ∪ m /\ pks' = pks ++ map fst ks /\
      (forall (c : N) pk, ps' !! c = Some pk -> c = commit_of sha pk /\ In pk pks') /\
      (forall pk, In pk pks' -> exists pk', ps' !! commit_of sha pk = Some pk')).
    { clear ks. induction ks as [|[pk sk] r IH]; intros m pks ps ND H1 H2 H3; cbn [fold_left load_key].
      - cbn. rewrite app_nil_r, (left_id_L ∅ (∪)). auto.
      - cbn [map fst] in *. inversion ND as [|? ? N1 N2]; subst.
        specialize (IH (<[pk := sk]> m) (pks ++ [pk])
          (match ps !! commit_of sha pk with Some _ => ps | None => <[commit_of sha pk := pk]> ps end)).
        destruct (fold_left _ r _) as [[m' pks'] ps']. destruct IH as (E1 & E2 & E3 & E4); auto.
        + intros c pk' H. rewrite in_app_iff. destruct (ps !! commit_of sha pk) eqn:E.
          * destruct (H1 _ _ H). auto.
          * destruct (decide (commit_of sha pk = c)) as [<-|NE].
            -- rewrite lookup_insert in H. injection H as <-. split; [auto|]. right. now left.
            -- rewrite lookup_insert_ne in H by auto. destruct (H1 _ _ H). auto.
        + intros pk' H. apply in_app_iff in H as [H|[<-|[]]].
          * destruct (H2 _ H) as [x Hx]. destruct (ps !! commit_of sha pk) eqn:E; [eauto|].
            exists x. rewrite lookup_insert_ne; [auto|congruence].
          * destruct (ps !! commit_of sha pk) eqn:E; [eauto|]. rewrite lookup_insert. eauto.
        + intros pk' H. rewrite lookup_insert_ne; [apply H3; now right|]. intros ->. contradiction.
        + split; [|split; [rewrite E2, <- app_assoc; reflexivity|auto]].
          rewrite E1. cbn [list_to_map foldr]. unfold uncurry; cbn.
          rewrite <- insert_union_l. rewrite insert_union_r; [reflexivity|].
          apply not_elem_of_list_to_map. intros HH. apply N1. now apply elem_of_list_In. }
    intros ND. specialize (G ks ∅ [] ∅ ND).
    destruct (fold_left _ ks _) as [[m' pks'] ps']. destruct G as (E1 & E2 & E3 & E4).
    - intros c pk H. rewrite lookup_empty in H. discriminate.
    - contradiction.
    - intros. apply lookup_empty.
    - rewrite (right_id_L ∅ (∪)) in E1. cbn in E2. subst. auto.
  Qed.

  Lemma insert_all_perm l : forall s, base.NoDup (outpoints (l ++ s)) ->
    Permutation (fold_left (fun s x => fst (us_insert x s)) l s) (l ++ s).
  Proof.
    induction l as [|x r IH]; intros s ND; cbn [fold_left app]; [reflexivity|].
    cbn in ND. apply NoDup_cons in ND as [N1 N2].
    assert (E : us_insert x s = (us_place x s, true)).
    { unfold us_insert. replace (us_mem x s) with false; [reflexivity|]. symmetry. apply us_mem_false.
      intros H. apply N1. change (in_prevout x ∈ outpoints (r ++ s)). rewrite outpoints_app, elem_of_app. auto. }
    rewrite E. cbn [fst]. rewrite IH.
    - rewrite us_place_perm. symmetry. apply Permutation_middle.
    - change (base.NoDup (outpoints (r ++ s))) in N2. change (in_prevout x ∉ outpoints (r ++ s)) in N1.
      assert (PP : Permutation (r ++ us_place x s) (x :: r ++ s)) by (rewrite us_place_perm; symmetry; apply Permutation_middle).
      rewrite (outpoints_perm _ _ PP). cbn [outpoints map]. apply NoDup_cons. split; auto.
  Qed.

  Lemma lawful_file : lawful c_wallet_file.
  Proof.
    apply lawful_pair.
    - apply lawful_map; auto using lawful_hash, consuming_hash.
    - apply lawful_oset. apply lawful_input.
  Qed.

  Lemma restart_spec w held : inv w held -> kinv w -> w_from w = w_to w -> file_typed w ->
    exists w', load sha w_empty (save w) = Some w' /\ inv w' held /\ kinv w' /\
      w_keys w' = w_keys w /\ (forall c, is_ours w' c = is_ours w c).
  Proof.
    intros I K E T. unfold load, save. rewrite ostream_ok. cbn [app].
    change (concat (wr c_wallet_file (map_to_list (w_keys w), w_utxos w))) with (enc c_wallet_file (map_to_list (w_keys w), w_utxos w)).
    rewrite <- (app_nil_r (enc _ _)). rewrite (l_rt _ lawful_file _ _ T).
    assert (NDk : List.NoDup (map fst (map_to_list (w_keys w)))).
    { apply NoDup_ListNoDup. apply NoDup_fst_map_to_list. }
    pose proof (load_keys_spec _ NDk) as LK. destruct (load_keys sha (map_to_list (w_keys w))) as [[m pks] ps].
    destruct LK as (E1 & E2 & E3 & E4). rewrite list_to_map_to_list in E1. subst m pks.
    assert (NDu : base.NoDup (outpoints (w_utxos w))).
    { pose proof (i_nodup _ _ I) as ND. rewrite (outpoints_perm _ _ (i_held _ _ I)), outpoints_app in ND.
      now apply NoDup_app in ND as [? _]. }
    pose proof (insert_all_perm (w_utxos w) []) as PU. rewrite app_nil_r in PU. specialize (PU NDu).
    set (us := fold_left _ _ _) in *.
    assert (HH : Permutation held (w_utxos w)).
    { rewrite (i_held _ _ I). unfold WalletSpec.unused_seeds. rewrite seed_coins_empty by lia. now rewrite app_nil_r. }
    pose proof (i_worth _ _ I) as W. rewrite (worth_perm _ _ HH) in W.
    assert (WU : worth us = worth (w_utxos w)) by now apply worth_perm.
    eexists. split; [reflexivity|].
    assert (KD : forall pk, In pk (map fst (map_to_list (w_keys w))) <-> exists sk, w_keys w !! (pk : N) = Some sk).
    { intros pk. rewrite in_map_iff. split.
      - intros ([a b] & <- & Hi). apply elem_of_list_In, elem_of_map_to_list in Hi. eauto.
      - intros [sk Hs]. exists (pk, sk). split; [reflexivity|]. now apply elem_of_list_In, elem_of_map_to_list. }
    split; [|split; [|split; [reflexivity|]]].
    - split; cbn.
      + unfold WalletSpec.unused_seeds; cbn. rewrite seed_coins_empty by lia. rewrite app_nil_r.
        now rewrite HH, PU.
      + apply (i_nodup _ _ I).
      + reflexivity.
      + rewrite fold_worth by lia. lia.
      + lia.
      + apply (i_worth _ _ I).
    - split; cbn.
      + apply (k_pub _ K).
      + intros c pk H. destruct (E3 _ _ H) as [-> Hi]. split; [auto|]. now apply KD.
      + intros pk Hi. unfold is_ours; cbn. destruct (E4 _ Hi) as [x Hx]. now rewrite Hx.
      + intros pk sk Hs. apply KD. eauto.
      + rewrite map_length. change (length (map_to_list (w_keys w))) with (size (w_keys w)). lia.
    - intros c. unfold is_ours; cbn. destruct (ps !! (c : N)) as [pk|] eqn:P.
      + destruct (E3 _ _ P) as [-> Hi]. apply KD in Hi as [sk Hs].
        pose proof (k_ours _ K _ (k_dom _ K _ _ Hs)) as O. unfold is_ours in O. now destruct (w_progs w !! commit_of sha pk).
      + destruct (w_progs w !! (c : N)) as [pk|] eqn:P2; [|reflexivity].
        destruct (k_prog _ K _ _ P2) as [-> Hs]. apply KD in Hs. destruct (E4 _ Hs) as [x Hx]. congruence.
  Qed.

  (* histories *)
  Lemma remove_by w held w' ins : spends w held w' ins -> inv w' (remove (outpoints ins) held).
  Proof. apply sp_inv. Qed.

  Lemma step_inv w held c w' o : inv w held -> kinv w -> meant sha pub_of w held c ->
    w_step sha pub_of ssign w c = (w', o) -> worth (held_after sha pub_of w held c o) < 2 ^ 64 ->
    inv w' (held_after sha pub_of w held c o) /\ kinv w' /\ fine o.
  Proof.
    intros I K M H W. destruct c; cbn [w_step meant held_after] in *.
    - pose proof (same_gen w rnd) as S. destruct (generate_key sha pub_of w rnd) as [w1 pk] eqn:G. injection H as <- <-.
      destruct (gen_spec _ _ _ _ K G) as (K1 & S1 & _). split; [eapply inv_same; eauto|]. split; [auto|]. repeat split; discriminate.
    - unfold mint_new_coins in H. pose proof (same_mint w rnds val) as S. pose proof (mint_kinv rnds val w K) as K1.
      destruct (mint_outputs sha pub_of w rnds val) as [w1 os]. injection H as <- <-. cbn in *.
      split; [eapply inv_same; eauto|]. split; [auto|]. repeat split; discriminate.
    - destruct (send_to sha pub_of ssign w amount payee do_sign rnd) as [w1 r] eqn:S. injection H as <- <-.
      assert (A : amount < 2 ^ 64) by (eapply N.lt_trans; [exact M|reflexivity]).
      destruct (send_to_spec _ _ _ _ _ _ _ _ I K A S) as [(-> & -> & _)|(ins & ch & w0 & wits & _ & _ & -> & SP & _)].
      + split; [auto|]. split; [auto|]. repeat split; discriminate.
      + cbn [tx_inputs]. split; [apply SP|]. split; [apply SP|]. repeat split; discriminate.
    - destruct (send_n sha ssign w input_count output_count payee do_sign) as [w1 r] eqn:S. injection H as <- <-.
      destruct M as (M1 & M2 & M3).
      destruct (send_n_spec _ _ _ _ _ _ _ _ I K M1 M2 M3 S) as [(-> & -> & _)|(ins & w0 & wits & val & last & _ & -> & _ & SP & _)].
      + split; [auto|]. split; [auto|]. repeat split; discriminate.
      + cbn [tx_inputs]. split; [apply SP|]. split; [apply SP|]. repeat split; discriminate.
    - destruct (fan sha pub_of ssign w output_count val payee do_sign rnd) as [w1 r] eqn:S. injection H as <- <-.
      destruct (fan_spec _ _ _ _ _ _ _ _ _ I K M S) as [(-> & -> & _)|(ins & ch & w0 & wits & _ & _ & -> & SP & _)].
      + split; [auto|]. split; [auto|]. repeat split; discriminate.
      + cbn [tx_inputs]. split; [apply SP|]. split; [apply SP|]. repeat split; discriminate.
    - unfold confirm_transaction in H. rewrite own_outputs_received in H. destruct M as [M1 M2].
      assert (RN : remove (outpoints (tx_inputs tx)) (fold_left credit (received sha w tx) held) = fold_left credit (received sha w tx) held).
      { apply remove_notin. intros p Hp. apply in_outpoints in Hp as (i & Hi & <-). auto. }
      rewrite RN in *.
      destruct (confirm_inv w held (received sha w tx) (tx_inputs tx) I K M2 M1 W) as (w1 & U & I1 & K1 & _).
      rewrite U in H. injection H as <- <-. split; [auto|]. split; [auto|]. repeat split; discriminate.
    - unfold confirm_inputs in H.
      destruct (confirm_inv w held credits [] I K M) as (w1 & U & I1 & K1 & _); [contradiction|exact W|].
      rewrite U in H. injection H as <- <-. split; [auto|]. split; [auto|]. repeat split; discriminate.
    - destruct (seed sha pub_of w sk val from to) as [w1 b] eqn:S. injection H as <- <-.
      unfold seed in S. destruct (N.leb_spec to from) as [L|L].
      { injection S as <- <-. split; [auto|]. split; [auto|]. repeat split; discriminate. }
      destruct (Nat.eqb_spec (size (w_keys w)) 0) as [Z|Z]; cbn [negb] in S.
      2:{ injection S as <- <-. split; [auto|]. split; [auto|]. repeat split; discriminate. }
      injection S as <- <-. apply map_size_empty_inv in Z. specialize (M L Z).
      split; [|split; [|repeat split; discriminate]].
      + apply (seed_inv (add_key sha pub_of w sk)); [eapply inv_same; [apply same_add_key|auto]| |exact W].
        exact M.
      + eapply kinv_same; [|apply kinv_add_key; exact K]. split; auto.
    - injection H as <- <-. split; [|split; [|repeat split; discriminate]].
      + apply seed_inv; auto.
      + eapply kinv_same; [|exact K]. split; auto.
    - destruct M as [M1 M2]. destruct (restart_spec w held I K M1 M2) as (w1 & L & I1 & K1 & _).
      rewrite L in H. injection H as <- <-. split; [auto|]. split; [auto|]. repeat split; discriminate.
  Qed.

  Lemma inv_empty : inv w_empty [].
  Proof.
    split; cbn; auto.
    - constructor.
    - split; [apply N.le_refl|reflexivity].
    - reflexivity.
  Qed.
  Lemma history_inv w held cs w' held' : inv w held -> kinv w ->
    history sha pub_of ssign w held cs w' held' -> inv w' held' /\ kinv w'.
  Proof.
    intros I K H. induction H as [|w held c w1 o cs w2 held2 M S W H IH]; [auto|].
    destruct (step_inv _ _ _ _ _ I K M S W) as (I1 & K1 & _). auto.
  Qed.
  Lemma after_inv cs w held : wallet_after sha pub_of ssign cs w held -> inv w held /\ kinv w.
  Proof. intros H. eapply history_inv; [apply inv_empty|apply kinv_empty|exact H]. Qed.

  (* the theorems *)
  Lemma wallet_balance cs w held : wallet_after sha pub_of ssign cs w held ->
    balance w = worth held /\ base.NoDup (outpoints held) /\
    (len held < 2 ^ 64 -> count w = len held).
  Proof.
    intros H. destruct (after_inv _ _ _ H) as [I K]. split; [now apply balance_held|].
    split; [apply (i_nodup _ _ I)|]. now apply count_held.
  Qed.
  Lemma wallet_fine cs w held c w' o : wallet_after sha pub_of ssign cs w held ->
    meant sha pub_of w held c -> w_step sha pub_of ssign w c = (w', o) ->
    worth (held_after sha pub_of w held c o) < 2 ^ 64 -> fine o.
  Proof. intros H M S W. destruct (after_inv _ _ _ H) as [I K]. eapply step_inv; eauto. Qed.
  Lemma history_snoc w held cs w1 held1 c w2 o : history sha pub_of ssign w held cs w1 held1 ->
    meant sha pub_of w1 held1 c -> w_step sha pub_of ssign w1 c = (w2, o) ->
    worth (held_after sha pub_of w1 held1 c o) < 2 ^ 64 ->
    history sha pub_of ssign w held (cs ++ [c]) w2 (held_after sha pub_of w1 held1 c o).
  Proof.
    induction 1; intros; cbn [app]; econstructor; eauto. constructor.
  Qed.
  Lemma wallet_restart cs w held : wallet_after sha pub_of ssign cs w held ->
    w_from w = w_to w -> file_typed w ->
    exists w', load sha w_empty (save w) = Some w' /\
      balance w' = balance w /\ count w' = count w /\
      w_keys w' = w_keys w /\ (forall c, is_ours w' c = is_ours w c) /\
      wallet_after sha pub_of ssign (cs ++ [WRestart]) w' held.
  Proof.
    intros H E T. destruct (after_inv _ _ _ H) as [I K].
    destruct (restart_spec w held I K E T) as (w' & L & I' & K' & E1 & E2).
    exists w'. split; [auto|]. rewrite (balance_held _ _ I'), (balance_held _ _ I). split; [auto|].
    split.
    - unfold count. rewrite (proj2 (N.eqb_eq _ _) E).
      assert (F : w_from w' = w_to w').
      { unfold load in L. destruct (dec _ _) as [[? ?] ?| |]; try discriminate. destruct (load_keys _ _) as [[? ?] ?]. now injection L as <-. }
      rewrite (proj2 (N.eqb_eq _ _) F).
      pose proof (Permutation_length (i_held _ _ I)) as P1. pose proof (Permutation_length (i_held _ _ I')) as P2.
      rewrite app_length in P1, P2. unfold WalletSpec.unused_seeds in P1, P2. rewrite seed_coins_empty in P1, P2 by lia. cbn in P1, P2. unfold len. lia.
    - split; [auto|]. split; [auto|].
      change held with (held_after sha pub_of w held WRestart ONone).
      eapply history_snoc; [exact H|split; auto| |apply (i_worth _ _ I)]. cbn [w_step]. now rewrite L.
  Qed.

  Lemma spends_built w held w' ins outs wits : inv w held -> spends w held w' ins ->
    worth ins = total (map out_value outs) ->
    built_from w held w' (FullTx ins outs wits).
  Proof.
    intros I SP E. pose proof (sp_perm _ _ _ _ SP) as P. unfold built_from, in_values, out_values; cbn.
    split; [|split; [|split; [exact E|]]].
    - pose proof (i_nodup _ _ I) as ND. rewrite (outpoints_perm _ _ P), outpoints_app in ND. now apply NoDup_app in ND as [? _].
    - intros i Hi. apply (Permutation_in _ (Permutation_sym P)). apply in_app_iff. auto.
    - rewrite (balance_held _ _ I), (balance_held _ _ (sp_inv _ _ _ _ SP)).
      rewrite (worth_perm _ _ P), worth_app. apply N.add_comm.
  Qed.

  Lemma spends_accepted pk_parse schnorr w held w' ins outs wits0 wits :
    keys_sound pub_of ssign pk_parse schnorr -> inv w held -> spends w held w' ins ->
    worth ins = total (map out_value outs) ->
    (forall i, In i held -> is_spendable w i = true /\ 1 <= coin_value i) ->
    (forall o, In o outs -> 1 <= out_value o) -> outs <> [] ->
    finish_tx sha ssign w' true (FullTx ins outs wits0) = Built (FullTx ins outs wits) ->
    check_tx sha pk_parse schnorr (FullTx ins outs wits) = Accepted.
  Proof.
    intros S I SP E F1 F2 NE F. destruct (spends_built w held w' ins outs wits I SP E) as (B1 & B2 & _). cbn in B1, B2.
    eapply signed_accepted; [exact S|apply (sp_kinv _ _ _ _ SP)|exact F|..]; cbn; auto.
    - intros ->. destruct outs as [|o r]; [congruence|]. cbn in E. specialize (F2 o (or_introl eq_refl)).
      change (worth []) with 0 in E. lia.
    - apply Forall_forall. intros i Hi. apply elem_of_list_In in Hi. destruct (F1 i (B2 i Hi)). split; [|auto].
      unfold is_spendable in *. now apply (sp_ours _ _ _ _ SP).
    - apply Forall_forall. intros o Ho. apply elem_of_list_In in Ho. auto.
    - pose proof (i_worth _ _ I) as W. rewrite (worth_perm _ _ (sp_perm _ _ _ _ SP)), worth_app in W. lia.
  Qed.

  Lemma change_pos w' change : change_ok w' change -> forall o, In o change -> 1 <= out_value o.
  Proof. intros [->|(o & -> & H & _)]; [contradiction|]. intros ? [<-|[]]. auto. Qed.

  Lemma wallet_send cs w held amount payee s rnd w' r : wallet_after sha pub_of ssign cs w held ->
    amount < 2 ^ 32 -> send_to sha pub_of ssign w amount payee s rnd = (w', r) ->
    (r = NoTx /\ w' = w /\ worth held < amount) \/
    (exists tx change, r = Built tx /\ amount <= worth held /\
       tx_outputs tx = Output (get_p2pk_witness_commitment sha payee) amount :: change /\
       change_ok w' change /\ built_from w held w' tx).
  Proof.
    intros H A E. destruct (after_inv _ _ _ H) as [I K].
    assert (A' : amount < 2 ^ 64) by (eapply N.lt_trans; [exact A|reflexivity]).
    destruct (send_to_spec _ _ _ _ _ _ _ _ I K A' E) as [?|(ins & ch & w0 & wits & L & F & -> & SP & C & T)]; [auto|].
    right. eexists _, ch. split; [reflexivity|]. split; [auto|]. split; [reflexivity|]. split; [auto|].
    apply spends_built; auto.
  Qed.
  Lemma wallet_send_accepted pk_parse schnorr cs w held amount payee rnd w' tx :
    keys_sound pub_of ssign pk_parse schnorr -> wallet_after sha pub_of ssign cs w held ->
    0 < amount < 2 ^ 32 -> (forall i, In i held -> is_spendable w i = true /\ 1 <= coin_value i) ->
    send_to sha pub_of ssign w amount payee true rnd = (w', Built tx) ->
    check_tx sha pk_parse schnorr tx = Accepted.
  Proof.
    intros S H [A0 A] F E. destruct (after_inv _ _ _ H) as [I K].
    assert (A' : amount < 2 ^ 64) by (eapply N.lt_trans; [exact A|reflexivity]).
    destruct (send_to_spec _ _ _ _ _ _ _ _ I K A' E) as [(D & _)|(ins & ch & w0 & wits & L & FI & E2 & SP & C & T)]; [discriminate|].
    injection E2 as ->. eapply spends_accepted; eauto.
    intros o [<-|Ho]; [cbn; lia|]. eapply change_pos; eauto.
  Qed.

  Lemma total_app a b : total (a ++ b) = total a + total b.
  Proof. induction a; cbn; [lia|]. lia. Qed.
  Lemma total_repeat c v n : total (map out_value (repeat (Output c v) n)) = N.of_nat n * v.
  Proof. induction n; cbn [repeat map total out_value]; [reflexivity|]. rewrite IHn. lia. Qed.

  Lemma wallet_fan cs w held n v payee s rnd w' r : wallet_after sha pub_of ssign cs w held ->
    n * v < 2 ^ 64 -> fan sha pub_of ssign w n v payee s rnd = (w', r) ->
    (r = NoTx /\ w' = w /\ worth held < n * v) \/
    (exists tx change, r = Built tx /\ n * v <= worth held /\
       tx_outputs tx = change ++ repeat (Output (get_p2pk_witness_commitment sha payee) v) (N.to_nat n) /\
       change_ok w' change /\ built_from w held w' tx).
  Proof.
    intros H A E. destruct (after_inv _ _ _ H) as [I K].
    destruct (fan_spec _ _ _ _ _ _ _ _ _ I K A E) as [?|(ins & ch & w0 & wits & L & F & -> & SP & C & T)]; [auto|].
    right. eexists _, ch. split; [reflexivity|]. split; [auto|]. split; [reflexivity|]. split; [auto|].
    apply spends_built; auto. rewrite map_app, total_app, total_repeat, T, N2Nat.id. lia.
  Qed.
  Lemma wallet_fan_accepted pk_parse schnorr cs w held n v payee rnd w' tx :
    keys_sound pub_of ssign pk_parse schnorr -> wallet_after sha pub_of ssign cs w held ->
    0 < n -> 0 < v -> n * v < 2 ^ 64 -> (forall i, In i held -> is_spendable w i = true /\ 1 <= coin_value i) ->
    fan sha pub_of ssign w n v payee true rnd = (w', Built tx) ->
    check_tx sha pk_parse schnorr tx = Accepted.
  Proof.
    intros S H A0 A1 A F E. destruct (after_inv _ _ _ H) as [I K].
    destruct (fan_spec _ _ _ _ _ _ _ _ _ I K A E) as [(D & _)|(ins & ch & w0 & wits & L & FI & E2 & SP & C & T)]; [discriminate|].
    injection E2 as ->. eapply spends_accepted; eauto.
    - rewrite map_app, total_app, total_repeat, T, N2Nat.id. lia.
    - intros o Ho. apply in_app_iff in Ho as [Ho|Ho]; [eapply change_pos; eauto|]. apply repeat_spec in Ho as ->. cbn. lia.
    - replace (N.to_nat n) with (Datatypes.S (N.to_nat (n - 1))) by lia. destruct ch; discriminate.
  Qed.

  Lemma wallet_send_n cs w held ic oc payee s w' r : wallet_after sha pub_of ssign cs w held ->
    0 < ic < 2 ^ 64 -> 0 < oc < 2 ^ 64 -> len held < 2 ^ 64 ->
    send_n sha ssign w ic oc payee s = (w', r) ->
    (r = NoTx /\ w' = w /\
      (len held < ic \/
       exists ins rest, Permutation held (ins ++ rest) /\ len ins = ic /\ worth ins < oc /\ 1 < oc)) \/
    (exists tx last, r = Built tx /\ len (tx_inputs tx) = ic /\
       let val := total (in_values tx) / oc in
       let pay := Output (get_p2pk_witness_commitment sha payee) in
       tx_outputs tx = repeat (pay val) (N.to_nat (oc - 1)) ++ [pay last] /\
       val <= last /\ (1 <= val \/ oc = 1) /\ built_from w held w' tx).
  Proof.
    intros H A1 A2 A3 E. destruct (after_inv _ _ _ H) as [I K].
    destruct (send_n_spec _ _ _ _ _ _ _ _ I K A1 A2 A3 E) as [?|(ins & w0 & wits & val & last & F & -> & L & SP & G1 & G2 & G3 & T)]; [auto|].
    right. eexists _, last. split; [reflexivity|]. cbn [tx_inputs tx_outputs]. split; [auto|]. cbn zeta.
    change (total (in_values (FullTx ins ?o wits))) with (worth ins). unfold in_values; cbn [tx_inputs].
    change (total (map (fun i => out_value (in_data i)) ins)) with (worth ins). rewrite <- G3.
    split; [reflexivity|]. split; [auto|]. split; [auto|]. apply spends_built; auto.
    rewrite map_app, total_app, total_repeat. cbn. lia.
  Qed.
  Lemma wallet_send_n_accepted pk_parse schnorr cs w held ic oc payee w' tx :
    keys_sound pub_of ssign pk_parse schnorr -> wallet_after sha pub_of ssign cs w held ->
    0 < ic < 2 ^ 64 -> 0 < oc < 2 ^ 64 -> len held < 2 ^ 64 ->
    (forall i, In i held -> is_spendable w i = true /\ 1 <= coin_value i) ->
    send_n sha ssign w ic oc payee true = (w', Built tx) ->
    check_tx sha pk_parse schnorr tx = Accepted.
  Proof.
    intros S H A1 A2 A3 F E. destruct (after_inv _ _ _ H) as [I K].
    destruct (send_n_spec _ _ _ _ _ _ _ _ I K A1 A2 A3 E) as [(D & _)|(ins & w0 & wits & val & last & FI & E2 & L & SP & G1 & G2 & G3 & T)]; [discriminate|].
    injection E2 as ->.
    assert (TT : worth ins = total (map out_value (repeat (Output (commit_of sha payee) val) (N.to_nat (oc - 1)) ++ [Output (commit_of sha payee) last]))).
    { rewrite map_app, total_app, total_repeat. cbn. lia. }
    eapply spends_accepted; eauto.
    - assert (1 <= last).
      { destruct G2 as [?|O]; [lia|]. subst oc. replace ((1 - 1) * val) with 0 in T by lia.
        destruct (spends_built w held w' ins (repeat (Output (commit_of sha payee) val) (N.to_nat (1 - 1)) ++ [Output (commit_of sha payee) last]) wits I SP TT) as (_ & B2 & _).
        cbn in B2. destruct ins as [|i r]; [cbn in L; lia|]. destruct (F i (B2 i (or_introl eq_refl))). rewrite worth_cons in T. lia. }
      intros o Ho. apply in_app_iff in Ho as [Ho|[<-|[]]]; [|cbn; lia].
      destruct G2 as [G2| ->]; [|destruct Ho]. apply repeat_spec in Ho as ->. cbn. lia.
    - destruct (repeat _ _); discriminate.
  Qed.

  (* sending and then confirming *)
  Lemma credits_fresh l : forall held, base.NoDup (outpoints (l ++ held)) ->
    worth (fold_left credit l held) = worth l + worth held /\
    outpoints (fold_left credit l held) ≡ₚ outpoints (l ++ held).
  Proof.
    induction l as [|c r IH]; intros held ND; cbn [fold_left app]; [split; [unfold worth at 2; cbn; lia|reflexivity]|].
    cbn [app outpoints map] in ND. apply NoDup_cons in ND as [N1 N2].
    change (base.NoDup (outpoints (r ++ held))) in N2. change (in_prevout c ∉ outpoints (r ++ held)) in N1.
    assert (E : credit held c = c :: held).
    { unfold credit. apply (decide_False (P := _)) || rewrite bool_decide_eq_false_2; [reflexivity|].
      intros Hc. apply N1. rewrite outpoints_app, elem_of_app. auto. }
    rewrite E. assert (PP : Permutation (r ++ c :: held) (c :: r ++ held)) by (symmetry; apply Permutation_middle).
    destruct (IH (c :: held)) as [W P].
    - rewrite (outpoints_perm _ _ PP). cbn [outpoints map]. apply NoDup_cons. auto.
    - rewrite W, !worth_cons. split; [lia|]. rewrite P. now apply outpoints_perm.
  Qed.
  Lemma outputs_from_worth tx keep os : forall i,
    worth (outputs_from sha tx keep i os) = total (map out_value (List.filter keep os)).
  Proof.
    induction os as [|o r IH]; intros i; cbn [outputs_from List.filter]; [reflexivity|].
    rewrite worth_app, IH. destruct (keep o); cbn; [|reflexivity]. unfold worth; cbn. unfold coin_value; cbn. lia.
  Qed.
  Lemma outputs_from_in tx keep os : forall i c, In c (outputs_from sha tx keep i os) ->
    op_txid (in_prevout c) = tx_id sha tx /\ i <= op_index (in_prevout c).
  Proof.
    induction os as [|o r IH]; intros i c; cbn [outputs_from]; [contradiction|].
    intros H. apply in_app_iff in H as [H|H].
    - destruct (keep o); [|contradiction]. destruct H as [<-|[]]. cbn. split; [reflexivity|lia].
    - destruct (IH _ _ H). split; [auto|lia].
  Qed.
  Lemma outputs_from_nodup tx keep os : forall i, base.NoDup (outpoints (outputs_from sha tx keep i os)).
  Proof.
    induction os as [|o r IH]; intros i; cbn [outputs_from]; [constructor|].
    destruct (keep o); cbn [app]; [|apply IH]. cbn [outpoints map]. apply NoDup_cons. split; [|apply IH].
    intros H. change (in_prevout (Input (OutPoint (tx_id sha tx) i) o) ∈ outpoints (outputs_from sha tx keep (i + 1) r)) in H.
    apply in_outpoints in H as (c & Hc & E). apply outputs_from_in in Hc as [_ Hi]. rewrite E in Hi. cbn in Hi. lia.
  Qed.

  Lemma confirm_built w held w' ins outs wits : inv w held -> spends w held w' ins ->
    worth ins = total (map out_value outs) ->
    let tx := FullTx ins outs wits in
    (forall c, In c held -> op_txid (in_prevout c) <> tx_id sha tx) ->
    exists w'', confirm_transaction sha w' tx = (w'', true) /\
      balance w'' = balance w' + total (map out_value (List.filter (fun o => is_ours w' (out_commit o)) outs)).
  Proof.
    intros I SP T tx HF. pose proof (sp_inv _ _ _ _ SP) as I1. set (held1 := remove (outpoints ins) held) in *.
    pose proof (sp_perm _ _ _ _ SP) as P. fold held1 in P.
    assert (HF1 : forall c, In c (ins ++ held1) -> op_txid (in_prevout c) <> tx_id sha tx).
    { intros c Hc. apply HF. now apply (Permutation_in _ (Permutation_sym P)). }
    set (rc := received sha w' tx).
    assert (RC : rc = outputs_from sha tx (fun o => is_ours w' (out_commit o)) 0 outs) by (unfold rc; now rewrite <- own_outputs_received).
    assert (Rin : forall c, In c rc -> op_txid (in_prevout c) = tx_id sha tx).
    { intros c Hc. rewrite RC in Hc. now apply outputs_from_in in Hc as [? _]. }
    assert (ND1 : base.NoDup (outpoints held1)) by apply (i_nodup _ _ I1).
    assert (ND : base.NoDup (outpoints (rc ++ held1))).
    { rewrite outpoints_app. apply NoDup_app. split; [rewrite RC; apply outputs_from_nodup|]. split; [|exact ND1].
      intros p Hp Hq. apply in_outpoints in Hp as (c & Hc & <-). apply in_outpoints in Hq as (d & Hd & E).
      apply (HF1 d); [apply in_app_iff; auto|]. rewrite E. auto. }
    destruct (credits_fresh rc held1 ND) as [W PO].
    assert (Wr : worth rc = total (map out_value (List.filter (fun o => is_ours w' (out_commit o)) outs))) by (rewrite RC; apply outputs_from_worth).
    assert (Wle : worth rc <= worth ins).
    { rewrite Wr, T. clear. induction outs as [|o r IH]; cbn; [lia|]. destruct (is_ours _ _); cbn; lia. }
    pose proof (i_worth _ _ I) as WH. rewrite (worth_perm _ _ P), worth_app in WH.
    unfold confirm_transaction. rewrite own_outputs_received. fold rc. cbn [tx_inputs tx].
    destruct (confirm_inv w' held1 rc ins I1 (sp_kinv _ _ _ _ SP)) as (w2 & U & I2 & _ & _).
    - intros i Hi Hu. apply in_outpoints in Hu as (d & Hd & E). apply (HF1 d).
      + apply in_app_iff. right. apply (Permutation_in _ (Permutation_sym (i_held _ _ I1))). apply in_app_iff. auto.
      + rewrite E. auto.
    - intros i Hi Hu. rewrite PO, outpoints_app, elem_of_app in Hu. destruct Hu as [Hu|Hu].
      + apply in_outpoints in Hu as (d & Hd & E). apply (HF1 i); [apply in_app_iff; auto|]. rewrite <- E. auto.
      + pose proof (i_nodup _ _ I) as NDh. rewrite (outpoints_perm _ _ P), outpoints_app in NDh.
        apply NoDup_app in NDh as (_ & D & _). apply (D (in_prevout i)); [apply in_outpoints; eauto|exact Hu].
    - lia.
    - exists w2. split; [exact U|]. rewrite (balance_held _ _ I2), (balance_held _ _ I1), W, Wr. lia.
  Qed.

  Lemma wallet_send_confirm cs w held amount payee s rnd w' tx : wallet_after sha pub_of ssign cs w held ->
    amount < 2 ^ 32 -> send_to sha pub_of ssign w amount payee s rnd = (w', Built tx) ->
    (forall c, In c held -> op_txid (in_prevout c) <> tx_id sha tx) ->
    exists w'', confirm_transaction sha w' tx = (w'', true) /\
      balance w'' + (if is_ours w' (get_p2pk_witness_commitment sha payee) then 0 else amount) = balance w.
  Proof.
    intros H A E HF. destruct (after_inv _ _ _ H) as [I K].
    assert (A' : amount < 2 ^ 64) by (eapply N.lt_trans; [exact A|reflexivity]).
    destruct (send_to_spec _ _ _ _ _ _ _ _ I K A' E) as [(D & _)|(ins & ch & w0 & wits & L & FI & E2 & SP & C & T)]; [discriminate|].
    injection E2 as ->.
    destruct (confirm_built w held w' ins (Output (commit_of sha payee) amount :: ch) wits I SP T HF) as (w2 & U & B).
    exists w2. split; [exact U|]. rewrite B, (balance_held _ _ I), (balance_held _ _ (sp_inv _ _ _ _ SP)).
    rewrite (worth_perm _ _ (sp_perm _ _ _ _ SP)), worth_app, T.
    assert (FC : List.filter (fun o => is_ours w' (out_commit o)) ch = ch).
    { destruct C as [->|(o & -> & _ & O)]; cbn; [reflexivity|]. now rewrite O. }
    cbn [List.filter out_commit]. change (get_p2pk_witness_commitment sha payee) with (commit_of sha payee).
    destruct (is_ours w' (commit_of sha payee)); cbn [map total out_value]; rewrite FC; lia.
  Qed.
End P.
