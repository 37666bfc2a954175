(** Proofs about the atomizer shard. *)
From Coq Require Import NArith Lia List Bool.
From stdpp Require Import base decidable list gmap.
From Verif Require Import Base CodecModel TxModel MsgModel AtomizerModel AtomizerShardModel
  AtomizerSpec AtomizerShardSpec.
Import ListNotations.
Open Scope N_scope.

Lemma apply_tx_elem u t x :
  x ∈ apply_tx u t <-> (x ∈ u \/ x ∈ ctx_outputs t) /\ x ∉ ctx_inputs t.
Proof.
  unfold apply_tx. rewrite elem_of_difference, elem_of_union, !elem_of_list_to_set. reflexivity.
Qed.

Lemma utxo_app l1 l2 : utxo (l1 ++ l2) = fold_left apply_tx l2 (utxo l1).
Proof. unfold utxo. apply fold_left_app. Qed.

Lemma utxo_snoc l t : utxo (l ++ [t]) = apply_tx (utxo l) t.
Proof. rewrite utxo_app. reflexivity. Qed.

Lemma chain_txs_app c1 c2 : chain_txs (c1 ++ c2) = chain_txs c1 ++ chain_txs c2.
Proof. unfold chain_txs. rewrite map_app, concat_app. reflexivity. Qed.

Lemma chain_txs_single b : chain_txs [b] = blk_txs b.
Proof. unfold chain_txs. cbn. apply app_nil_r. Qed.

Lemma fold_put r outs : forall (u : gset N) x,
  x ∈ fold_left (fun u x => if in_range r x then u ∪ {[ x ]} else u) outs u <->
  x ∈ u \/ (in_range r x = true /\ x ∈ outs).
Proof.
  induction outs as [|y l IH]; intros u x; cbn [fold_left].
  - rewrite elem_of_nil. tauto.
  - rewrite IH, elem_of_cons. destruct (in_range r y) eqn:E.
    + rewrite elem_of_union, elem_of_singleton. split.
      * intros [[?| ->]|?]; tauto.
      * intros [?|[? [->|?]]]; tauto.
    + split; [tauto|]. intros [?|[? [->|?]]]; [tauto|congruence|tauto].
Qed.

Lemma fold_del r ins : forall (u : gset N) x,
  x ∈ fold_left (fun u x => if in_range r x then u ∖ {[ x ]} else u) ins u <->
  x ∈ u /\ ~ (in_range r x = true /\ x ∈ ins).
Proof.
  induction ins as [|y l IH]; intros u x; cbn [fold_left].
  - rewrite elem_of_nil. tauto.
  - rewrite IH, elem_of_cons. destruct (in_range r y) eqn:E.
    + rewrite elem_of_difference, elem_of_singleton. split.
      * intros [[? ?] ?]. split; [tauto|]. intros [? [->|?]]; tauto.
      * intros [? H]. split; [split; [tauto|]|tauto]. intros ->. tauto.
    + split; [|tauto]. intros [? H]. split; [tauto|]. intros [? [->|?]]; [congruence|tauto].
Qed.

Lemma ashard_apply_elem r u t x :
  x ∈ ashard_apply r u t <->
  (x ∈ u \/ (in_range r x = true /\ x ∈ ctx_outputs t)) /\ ~ (in_range r x = true /\ x ∈ ctx_inputs t).
Proof. unfold ashard_apply. rewrite fold_del, fold_put. reflexivity. Qed.

Lemma fold_apply_holds r txs : forall (u : gset N) v,
  (forall x, x ∈ u <-> in_range r x = true /\ x ∈ v) ->
  forall x, x ∈ fold_left (ashard_apply r) txs u <-> in_range r x = true /\ x ∈ fold_left apply_tx txs v.
Proof.
  induction txs as [|t l IH]; intros u v H; cbn [fold_left]; [exact H|].
  apply IH. intro x. rewrite ashard_apply_elem, apply_tx_elem, H.
  destruct (in_range r x); split; intros; tauto || (exfalso; intuition congruence).
Qed.

Record ShInv (r : N * N) (bs : list block) (s : ashard) : Prop := {
  sh_range : as_range s = r;
  sh_best : as_best s = len bs;
  sh_db : db_best (as_db s) = Some (len bs);
  sh_uhs : shard_holds r bs (db_uhs (as_db s));
  sh_snp : as_snp s = (len bs, db_uhs (as_db s));
  sh_heights : consecutive 1 bs }.

Lemma ShInv_new r : ShInv r [] (ashard_open r (Adb None ∅)).
Proof.
  constructor; try reflexivity.
  - intro x. cbn [ashard_open as_db db_uhs]. change (utxo (chain_txs [])) with (∅ : gset N).
    rewrite elem_of_empty. tauto.
  - intros i b H. inversion H.
Qed.

Lemma ShInv_reopen r bs s : ShInv r bs s -> ShInv r bs (ashard_open (as_range s) (as_db s)).
Proof.
  intros [H1 H2 H3 H4 H5 H6]. unfold ashard_open. rewrite H3.
  constructor; cbn [as_range as_best as_db as_snp db_best db_uhs]; auto.
Qed.

Lemma ShInv_digest r bs s b : ShInv r bs s -> len bs + 1 < two64 ->
  (blk_height b = len bs + 1 ->
     snd (ashard_digest_block true s b) = true /\
     ShInv r (bs ++ [b]) (fst (ashard_digest_block true s b))) /\
  (blk_height b <> len bs + 1 -> ashard_digest_block true s b = (s, false)).
Proof.
  intros [H1 H2 H3 H4 H5 H6] Hlen. unfold ashard_digest_block. rewrite H2.
  assert (Ha : add64 (len bs) 1 = len bs + 1).
  { unfold add64, wrap64. apply N.mod_small. exact Hlen. }
  rewrite Ha. split; intro Hb.
  - rewrite Hb, N.eqb_refl. cbn [negb fst snd]. split; [reflexivity|].
    assert (Hl : len (bs ++ [b]) = len bs + 1).
    { unfold len. rewrite app_length. cbn [length]. lia. }
    constructor; cbn [as_range as_best as_db as_snp db_best db_uhs]; rewrite ?Hl; try reflexivity.
    + exact H1.
    + intro x. rewrite chain_txs_app, chain_txs_single, utxo_app, H1.
      apply fold_apply_holds. exact H4.
    + intros i b' Hi. apply lookup_app_Some in Hi. destruct Hi as [Hi|[Hi Hi2]].
      * exact (H6 i b' Hi).
      * apply list_lookup_singleton_Some in Hi2. destruct Hi2 as [Hz <-]. rewrite Hb. unfold len. lia.
  - destruct (N.eqb_spec (blk_height b) (len bs + 1)); [contradiction|]. reflexivity.
Qed.

Lemma ShInv_do r bs s e : ShInv r bs s -> len bs + 1 < two64 ->
  ShInv r (bs ++ snd (shard_do s e)) (fst (shard_do s e)).
Proof.
  intros I Hlen. pose proof (sh_range _ _ _ I) as Hr. destruct e as [b| |b w]; cbn [shard_do].
  - destruct (ShInv_digest r bs s b I Hlen) as [D1 D2].
    destruct (decide (blk_height b = len bs + 1)) as [Hb|Hb].
    + destruct (D1 Hb) as [E1 E2]. destruct (ashard_digest_block true s b) as [s' ok].
      cbn [fst snd] in *. subst ok. exact E2.
    + rewrite (D2 Hb). cbn [fst snd]. rewrite app_nil_r. exact I.
  - cbn [fst snd]. rewrite app_nil_r. apply ShInv_reopen. exact I.
  - destruct (ShInv_digest r bs s b I Hlen) as [D1 D2].
    destruct (decide (blk_height b = len bs + 1)) as [Hb|Hb].
    + destruct (D1 Hb) as [E1 E2]. destruct (ashard_digest_block true s b) as [s' ok].
      cbn [fst snd] in *. subst ok. destruct w; cbn [fst snd].
      * pose proof (ShInv_reopen _ _ _ E2) as X. rewrite (sh_range _ _ _ E2) in X. rewrite Hr. exact X.
      * rewrite app_nil_r. apply ShInv_reopen. exact I.
    + rewrite (D2 Hb). destruct w; cbn [fst snd]; rewrite app_nil_r; apply ShInv_reopen; exact I.
Qed.

Lemma shard_do_le s e : (length (snd (shard_do s e)) <= 1)%nat.
Proof.
  destruct e as [b| |b w]; cbn [shard_do].
  - destruct (ashard_digest_block true s b) as [s' []]; cbn; lia.
  - cbn. lia.
  - destruct (ashard_digest_block true s b) as [s' []]; destruct w; cbn; lia.
Qed.

Lemma ShInv_run r es : forall bs s, ShInv r bs s -> len bs + len es + 1 < two64 ->
  ShInv r (bs ++ snd (shard_run s es)) (fst (shard_run s es)).
Proof.
  induction es as [|e es IH]; intros bs s I Hlen; cbn [shard_run].
  - cbn [fst snd]. rewrite app_nil_r. exact I.
  - assert (Hl : len (e :: es) = len es + 1) by (unfold len; cbn [length]; lia).
    pose proof (ShInv_do r bs s e I ltac:(lia)) as I1.
    pose proof (shard_do_le s e) as Hle.
    destruct (shard_do s e) as [s1 b1]. cbn [fst snd] in *.
    assert (Hl2 : len (bs ++ b1) <= len bs + 1) by (unfold len; rewrite app_length; lia).
    specialize (IH (bs ++ b1) s1 I1 ltac:(lia)).
    destruct (shard_run s1 es) as [s2 b2]. cbn [fst snd] in *. rewrite app_assoc. exact IH.
Qed.

Lemma shard_run_inv r es : len es + 1 < two64 ->
  ShInv r (snd (shard_run (ashard_open r (Adb None ∅)) es))
          (fst (shard_run (ashard_open r (Adb None ∅)) es)).
Proof.
  intro H. apply (ShInv_run r es [] _ (ShInv_new r)). unfold len at 1. cbn [length]. lia.
Qed.

(** ** Answers *)

Lemma scan_spec r (u : gset N) ins : forall i atts dne,
  ashard_scan r (fun _ => false) u i ins = (atts, dne) ->
  (forall j, j ∈ atts <-> exists k x, j = i + N.of_nat k /\ ins !! k = Some x /\ in_range r x = true /\ x ∈ u) /\
  (forall x, x ∈ dne <-> x ∈ ins /\ in_range r x = true /\ x ∉ u) /\
  base.NoDup atts.
Proof.
  induction ins as [|y l IH]; intros i atts dne H; cbn [ashard_scan] in H.
  - injection H as <- <-. split; [|split].
    + intro j. split; [intro Hj; inversion Hj|]. intros [k [x [_ [Hk _]]]]. inversion Hk.
    + intro x. rewrite elem_of_nil. tauto.
    + constructor.
  - destruct (ashard_scan r (fun _ => false) u (i + 1) l) as [atts1 dne1] eqn:E.
    destruct (IH _ _ _ E) as [I1 [I2 I3]].
    assert (Hshift : forall j (P : N -> Prop),
       (exists k x, j = i + N.of_nat k /\ (y :: l) !! k = Some x /\ P x) <->
       (j = i /\ P y) \/ exists k x, j = i + 1 + N.of_nat k /\ l !! k = Some x /\ P x).
    { intros j P. split.
      - intros [[|k] [x [Hj [Hk Hp]]]].
        + injection Hk as <-. left. split; [lia|exact Hp].
        + right. exists k, x. split; [lia|]. split; [exact Hk|exact Hp].
      - intros [[-> Hp]|[k [x [Hj [Hk Hp]]]]].
        + exists 0%nat, y. split; [lia|]. split; [reflexivity|exact Hp].
        + exists (S k), x. split; [lia|]. split; [exact Hk|exact Hp]. }
    rewrite orb_false_r in H.
    destruct (in_range r y) eqn:Er; [case_bool_decide as Hu|]; injection H as <- <-.
    + split; [|split].
      * intro j. rewrite (Hshift j (fun x => in_range r x = true /\ x ∈ u)), elem_of_cons, I1. tauto.
      * intro x. rewrite I2, elem_of_cons. split; [tauto|]. intros [[->|?] ?]; tauto.
      * constructor; [|exact I3]. intro Hi. apply I1 in Hi. destruct Hi as [k [x [Hj _]]]. lia.
    + split; [|split].
      * intro j. rewrite (Hshift j (fun x => in_range r x = true /\ x ∈ u)), I1. tauto.
      * intro x. rewrite !elem_of_cons, I2. split; [|tauto]. intros [->|?]; tauto.
      * exact I3.
    + split; [|split].
      * intro j. rewrite (Hshift j (fun x => in_range r x = true /\ x ∈ u)), I1.
        split; [tauto|]. intros [[_ [? _]]|?]; [congruence|tauto].
      * intro x. rewrite I2, elem_of_cons. split; [tauto|]. intros [[->|?] [? ?]]; [congruence|tauto].
      * exact I3.
Qed.

Lemma ShInv_truthful r bs s t : ShInv r bs s ->
  truthful r bs t (ashard_digest_tx (fun _ => false) s t).
Proof.
  intros [H1 H2 H3 H4 H5 H6]. unfold ashard_digest_tx. rewrite H5, H1. cbn [fst snd].
  destruct (N.eqb_spec (len bs) 0) as [Hz|Hz].
  - cbn. split; [reflexivity|]. destruct bs; [reflexivity|]. unfold len in Hz. cbn in Hz. lia.
  - assert (Hbs : bs <> []) by (intros ->; apply Hz; reflexivity).
    destruct (ctx_inputs t) as [|x0 l0] eqn:Ei.
    + cbn. split; [reflexivity|]. split; [exact Hbs|]. split; [|intros _; exact Ei].
      intro x. split; [intro Hx; inversion Hx|]. rewrite Ei. intros [Hx _]. inversion Hx.
    + rewrite <- Ei in *.
      destruct (ashard_scan r (fun _ => false) (db_uhs (as_db s)) 0 (ctx_inputs t)) as [atts dne] eqn:Es.
      assert (Hmatch : match ctx_inputs t with
                       | [] => inr (TxErr (ctx_id t) (EInputsDne []))
                       | _ :: _ => match dne with
                                   | [] => inl (Notif t atts (len bs))
                                   | _ :: _ => inr (TxErr (ctx_id t) (EInputsDne dne))
                                   end
                       end = match dne with
                             | [] => inl (Notif t atts (len bs))
                             | _ :: _ => inr (TxErr (ctx_id t) (EInputsDne dne))
                             end :> notif + tx_err).
      { rewrite Ei. reflexivity. }
      clear Hmatch.
      destruct (scan_spec _ _ _ _ _ _ Es) as [S1 [S2 S3]].
      assert (Hm : forall x, (in_range r x = true /\ x ∉ db_uhs (as_db s)) <->
                             (in_range r x = true /\ x ∉ utxo (chain_txs bs))).
      { intro x. rewrite (H4 x). tauto. }
      destruct dne as [|d0 dne].
      * cbn [truthful nt_tx nt_height nt_atts]. split; [reflexivity|]. split; [reflexivity|].
        split; [exact Hbs|]. split; [rewrite Ei; discriminate|]. split; [|split; [|exact S3]].
        -- intros x Hx Hmis. apply Hm in Hmis. assert (Hc : x ∈ @nil N) by (apply S2; tauto). inversion Hc.
        -- intro i. rewrite S1. split.
           ++ intros [k [x [Hj [Hk [Hr _]]]]]. exists x. rewrite N.add_0_l in Hj. subst i.
              rewrite Nat2N.id. tauto.
           ++ intros [x [Hk Hr]]. exists (N.to_nat i), x. split; [lia|]. split; [exact Hk|].
              split; [exact Hr|]. destruct (decide (x ∈ db_uhs (as_db s))) as [Hd|Hd]; [exact Hd|].
              exfalso. assert (Hc : x ∈ @nil N).
              { apply S2. split; [eapply elem_of_list_lookup_2; exact Hk|]. tauto. }
              inversion Hc.
      * cbn [truthful]. split; [reflexivity|]. split; [exact Hbs|]. split; [|discriminate].
        intro x. rewrite S2, Hm. reflexivity.
Qed.

(** ** Statements about histories *)
Lemma shard_history r es s bs : len es + 1 < two64 ->
  shard_run (ashard_open r (Adb None ∅)) es = (s, bs) ->
  shard_holds r bs (db_uhs (as_db s)) /\ as_best s = len bs /\ consecutive 1 bs.
Proof.
  intros H E. pose proof (shard_run_inv r es H) as I. rewrite E in I. destruct I. tauto.
Qed.
Lemma shard_block r es s bs b : len es + 2 < two64 ->
  shard_run (ashard_open r (Adb None ∅)) es = (s, bs) ->
  (blk_height b = len bs + 1 -> exists s', ashard_digest_block true s b = (s', true) /\
     shard_holds r (bs ++ [b]) (db_uhs (as_db s'))) /\
  (blk_height b <> len bs + 1 -> ashard_digest_block true s b = (s, false)).
Proof.
  intros H E. pose proof (shard_run_inv r es ltac:(lia)) as I. rewrite E in I. cbn [fst snd] in I.
  assert (Hl : len bs <= len es).
  { clear -E. revert E. generalize (ashard_open r (Adb None ∅)). revert s bs.
    induction es as [|e es IH]; intros s bs s0 E; cbn [shard_run] in E.
    - injection E as <- <-. unfold len. cbn. lia.
    - destruct (shard_do s0 e) as [s1 b1] eqn:E1. destruct (shard_run s1 es) as [s2 b2] eqn:E2.
      injection E as <- <-. specialize (IH _ _ _ E2).
      assert (length b1 <= 1)%nat.
      { destruct e as [b| |b []]; cbn [shard_do] in E1.
        - destruct (ashard_digest_block true s0 b) as [s' []]; injection E1 as <- <-; cbn; lia.
        - injection E1 as <- <-. cbn. lia.
        - destruct (ashard_digest_block true s0 b) as [s' []]; injection E1 as <- <-; cbn; lia.
        - destruct (ashard_digest_block true s0 b) as [s' []]; injection E1 as <- <-; cbn; lia. }
      unfold len in *. rewrite app_length. cbn [length]. lia. }
  destruct (ShInv_digest r bs s b I ltac:(lia)) as [A B]. split; [|exact B].
  intro Hb. destruct (A Hb) as [A1 A2]. destruct (ashard_digest_block true s b) as [s' ok].
  cbn [fst snd] in *. subst ok. exists s'. split; [reflexivity|]. exact (sh_uhs _ _ _ A2).
Qed.
Lemma shard_restart r es s bs : len es + 1 < two64 ->
  shard_run (ashard_open r (Adb None ∅)) es = (s, bs) -> shard_do s EvRestart = (s, []).
Proof.
  intros H E. pose proof (shard_run_inv r es H) as I. rewrite E in I. destruct I as [H1 H2 H3 H4 H5 H6].
  cbn [fst snd shard_do] in *. unfold ashard_open. rewrite H3.
  destruct s as [rg best [db u] snp]. cbn [as_range as_best as_db as_snp db_best db_uhs] in *.
  subst. reflexivity.
Qed.
Lemma shard_crash_in r es s bs b w : len es + 2 < two64 ->
  shard_run (ashard_open r (Adb None ∅)) es = (s, bs) ->
  shard_do s (EvCrashIn b w) = if w then shard_do s (EvBlock b) else (s, []).
Proof.
  intros H E. pose proof (shard_restart r es s bs ltac:(lia) E) as R. cbn [shard_do] in R.
  injection R as R. destruct w; cbn [shard_do].
  - destruct (ashard_digest_block true s b) as [s' ok] eqn:D. f_equal.
    destruct ok.
    + unfold ashard_digest_block in D.
      destruct (negb (blk_height b =? add64 (as_best s) 1)); [discriminate|].
      injection D as <-. unfold ashard_open. cbn [as_range as_best as_db as_snp db_best db_uhs].
      reflexivity.
    + unfold ashard_digest_block in D.
      destruct (negb (blk_height b =? add64 (as_best s) 1)); [|discriminate].
      injection D as <-. exact R.
  - destruct (ashard_digest_block true s b) as [s' ok]. rewrite R. reflexivity.
Qed.
Lemma shard_answers r es s bs t : len es + 1 < two64 ->
  shard_run (ashard_open r (Adb None ∅)) es = (s, bs) ->
  truthful r bs t (ashard_digest_tx (fun _ => false) s t).
Proof.
  intros H E. pose proof (shard_run_inv r es H) as I. rewrite E in I. exact (ShInv_truthful _ _ _ _ I).
Qed.
