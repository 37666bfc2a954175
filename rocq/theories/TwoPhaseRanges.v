(** Shard ranges and the distribution of a batch. *)
From Coq Require Import NArith List Bool Lia Arith.
From stdpp Require Import base decidable list gmap.
From Verif Require Import Base CodecModel TxModel CacheModel LockingShardModel
  LockingShardSpec LockingShardProofs TwoPhaseModel TwoPhaseSpec TwoPhaseNode.
Import ListNotations.
Open Scope N_scope.

Lemma contiguous_bounds rs : forall lo hi b,
  contiguous lo rs hi ->
  ((lo <= b <= hi) <-> exists i r, rs !! i = Some r /\ fst r <= b <= snd r) /\ lo <= hi.
Proof.
  induction rs as [|r [|r2 rs] IH]; intros lo hi b H; [destruct H| |].
  - destruct H as (<- & <- & Hle). split; [|done]. split.
    + intros Hb. exists 0%nat, r. done.
    + intros (i & r' & Hi & Hb). destruct i; [|destruct i; done]. inv Hi. done.
  - destruct H as (<- & Hle & Hc). destruct (IH _ hi b Hc) as [Hb Hle2]. split; [|lia]. split.
    + intros Hbb. destruct (N.le_gt_cases b (snd r)) as [Hs|Hs].
      * exists 0%nat, r. split; [done|]. lia.
      * destruct (proj1 Hb) as (i & r' & Hi & Hr); [lia|]. exists (S i), r'. done.
    + intros (i & r' & Hi & Hr). destruct i as [|i].
      * inv Hi. lia.
      * assert (snd r + 1 <= b <= hi); [|lia]. apply Hb. exists i, r'. done.
Qed.

Lemma contiguous_unique rs : forall lo hi b i j r r',
  contiguous lo rs hi -> rs !! i = Some r -> rs !! j = Some r' ->
  fst r <= b <= snd r -> fst r' <= b <= snd r' -> i = j.
Proof.
  induction rs as [|r0 [|r2 rs] IH]; intros lo hi b i j r r' H Hi Hj Hr Hr'; [destruct H| |].
  - destruct i; [|destruct i; done]. destruct j; [|destruct j; done]. done.
  - destruct H as (<- & Hle & Hc).
    destruct (contiguous_bounds _ _ hi b Hc) as [Hb _].
    destruct i as [|i], j as [|j]; auto.
    + inv Hi. exfalso. assert (snd r + 1 <= b <= hi); [|lia]. apply Hb. exists j, r'. done.
    + inv Hj. exfalso. assert (snd r' + 1 <= b <= hi); [|lia]. apply Hb. exists i, r. done.
    + f_equal. eapply IH; eauto.
Qed.

Lemma in_range_spec r h :
  in_range r h = true <-> fst r <= first_byte h <= snd r.
Proof. unfold in_range. rewrite andb_true_iff, !N.leb_le. done. Qed.

Lemma first_byte_bound h : is_hash h -> first_byte h <= 255.
Proof.
  intros H. unfold first_byte, is_hash in *.
  assert (h / 2 ^ 248 < 256); [|lia]. apply N.div_lt_upper_bound; [lia|].
  replace (2 ^ 248 * 256) with (2 ^ 256) by reflexivity. done.
Qed.

Lemma one_owner rs h :
  contiguous 0 rs 255 -> is_hash h ->
  exists i r, rs !! i = Some r /\ in_range r h = true /\
    forall i' r', rs !! i' = Some r' -> in_range r' h = true -> i' = i.
Proof.
  intros Hc Hh. pose proof (first_byte_bound h Hh) as Hb.
  destruct (contiguous_bounds rs 0 255 (first_byte h) Hc) as [Hiff _].
  destruct (proj1 Hiff) as (i & r & Hi & Hr); [lia|].
  exists i, r. split; [done|]. split; [now apply in_range_spec|].
  intros i' r' Hi' Hr'. apply in_range_spec in Hr'.
  eapply contiguous_unique; eauto.
Qed.

Lemma part_is_filter rs cl B i r :
  rs !! i = Some r ->
  dx_txs (add_txs rs (dtx_new (length rs) cl) B) !! i
  = Some (List.filter (fun t => bool_decide (concerns r t)) B).
Proof.
  intros Hi. destruct (add_txs_fields rs B cl) as (_ & -> & _).
  rewrite list_lookup_fmap, Hi. cbn. f_equal. unfold part_txs.
  generalize 0%nat. induction B as [|t B IH]; intros k; [done|].
  rewrite relevant_cons. cbn.
  assert (E : bool_decide (concerns r t) = active r t).
  { destruct (active r t) eqn:Ea.
    - apply bool_decide_eq_true_2, active_spec, Ea.
    - apply bool_decide_eq_false_2. rewrite <- active_spec. congruence. }
  rewrite E. destruct (active r t); cbn; [f_equal|]; apply IH.
Qed.

Lemma part_index rs cl B i r j k :
  rs !! i = Some r ->
  (exists l, dx_idxs (add_txs rs (dtx_new (length rs) cl) B) !! i = Some l /\ l !! j = Some k)
  <-> exists t, relevant r 0 B !! j = Some (k, t).
Proof.
  intros Hi. destruct (add_txs_fields rs B cl) as (_ & _ & -> & _).
  rewrite list_lookup_fmap, Hi. cbn. rewrite <- idxs_lookup. unfold part_idxs. split.
  - intros (l & E & H). inv E. done.
  - eauto.
Qed.

Lemma sent_iff cfgs B i k t :
  (exists j, sent cfgs B i j k t) <->
  exists c, cfgs !! i = Some c /\ B !! k = Some t /\ concerns (sc_range c) t.
Proof.
  split.
  - intros (j & c & Hc & H). apply relevant_lookup in H as (_ & Hk & Ha).
    exists c. rewrite Nat.sub_0_r in Hk. split; [done|]. split; [done|]. now apply active_spec.
  - intros (c & Hc & Hk & Ha). apply active_spec in Ha.
    destruct (relevant_complete (sc_range c) B 0 k t Hk Ha) as [j Hj].
    exists j, c. done.
Qed.

(** With a partition, every input, output and ID of a sent transaction has a
    shard that sees it. *)
Lemma owner_sees cfgs B k t x :
  contiguous 0 (ranges cfgs) 255 -> is_hash x -> B !! k = Some t ->
  x = ctx_id t \/ In x (ctx_inputs t) \/ In x (ctx_outputs t) ->
  exists i j c, cfgs !! i = Some c /\ in_range (sc_range c) x = true /\
    sent cfgs B i j k t.
Proof.
  intros Hc Hx Hk Ho. destruct (one_owner _ x Hc Hx) as (i & r & Hi & Hr & _).
  unfold ranges in Hi. rewrite list_lookup_fmap in Hi.
  destruct (cfgs !! i) as [c|] eqn:Ec; [|done]. inv Hi.
  destruct (proj2 (sent_iff cfgs B i k t)) as [j Hj].
  { exists c. split; [done|]. split; [done|]. unfold concerns.
    destruct Ho as [->|[?|?]]; eauto. }
  exists i, j, c. done.
Qed.
