(** A concrete supply: 150 are issued to two owners, who pay a third together. *)
From Coq Require Import NArith List Bool Lia.
From stdpp Require Import base decidable list gmap.
From Verif Require Import Base CodecModel TxModel TxSpec TxExamples ValidationModel ValidationSpec ValidationProofs
  WalletModel WalletExamples ClientExamples SentinelModel SentinelSpec SentinelProofs SentinelExamples
  MsgModel AtomizerModel AtomizerSpec AtomizerShardModel AtomizerSystemModel AtomizerShardSpec AtomizerExamples
  LockingShardModel LockingShardSpec TwoPhaseModel TwoPhaseSpec TwoPhaseExamples SupplySpec SupplyProofs SupplySystemProofs.
Import ListNotations.
Open Scope N_scope.

Definition s_mint : full_tx := FullTx [] [Output (addr 5) 100; Output (addr 6) 50] [].
Definition s_coins : list input := coins_made quick_sha s_mint.
(** They pay 120 to [k]. *)
Definition s_bare (k : N) : full_tx := FullTx s_coins [Output (addr k) 120; Output (addr 5) 30] [].
Definition s_wit (k sk : N) : bytes :=
  0 :: be_bytes 32 (toy_pub sk) ++ be_bytes 64 (toy_ssign sk (tx_id quick_sha (s_bare k))).
Definition s_payto (k : N) : full_tx := FullTx s_coins (tx_outputs (s_bare k)) [s_wit k 5; s_wit k 6].
Definition s_pay : full_tx := s_payto 7.
Definition s_txs : list full_tx := [s_mint; s_pay; s_payto 8; s_payto 9].
Definition s_digest (tx : full_tx) : hash := ctx_hash quick_sha (to_compact quick_sha tx).
(** Keys from 1000 sign only these transactions. *)
Definition s_schnorr (pk : N) (h : hash) (sg : N) : bool :=
  toy_schnorr pk h sg && ((pk <? 1000) || existsb (fun tx => h =? s_digest tx) s_txs).
Definition s_attested (tx : full_tx) : compact_tx :=
  CompactTx (ctx_id (to_compact quick_sha tx)) (ctx_inputs (to_compact quick_sha tx)) (ctx_outputs (to_compact quick_sha tx))
    [(1001, toy_ssign 1001 (s_digest tx)); (1002, toy_ssign 1002 (s_digest tx))].
Lemma s_accepted : forallb (fun tx => tx_b tx && match check_tx quick_sha all_parse s_schnorr tx with Accepted => true | _ => false end)
  [s_pay; s_payto 8; s_payto 9] = true.
Proof. vm_compute. reflexivity. Qed.
Lemma s_mint_typed : typed_full_tx s_mint.
Proof. apply tx_b_ok. vm_compute. reflexivity. Qed.
Lemma s_pay_typed : typed_full_tx s_pay.
Proof. apply tx_b_ok. vm_compute. reflexivity. Qed.
Lemma s_mint_genuine : genuine quick_sha all_parse s_schnorr s_mint.
Proof. split; [exact s_mint_typed|right; reflexivity]. Qed.
Lemma s_pays_genuine k : In k [7; 8; 9] -> genuine quick_sha all_parse s_schnorr (s_payto k).
Proof.
  intros K. pose proof s_accepted as A. rewrite forallb_forall in A. specialize (A (s_payto k)).
  rewrite andb_true_iff in A. destruct A as [T A].
  { cbn [In] in *. intuition (subst; auto). }
  split; [apply tx_b_ok, T|left]. apply check_tx_accepts; [split; repeat constructor|].
  destruct (check_tx quick_sha all_parse s_schnorr (s_payto k)); [reflexivity|discriminate A..].
Qed.
Lemma s_pay_genuine : genuine quick_sha all_parse s_schnorr s_pay.
Proof. apply s_pays_genuine. now left. Qed.
Lemma s_all_genuine : Forall (genuine quick_sha all_parse s_schnorr) s_txs.
Proof.
  unfold s_txs. apply Forall_cons. split; [exact s_mint_genuine|].
  repeat (apply Forall_cons; split; [apply s_pays_genuine; cbn; tauto|]). apply Forall_nil_2.
Qed.
Lemma s_faithful pk : 1000 <= pk -> faithful_key quick_sha all_parse s_schnorr pk.
Proof.
  intros P h sg. unfold s_schnorr. rewrite andb_true_iff, !orb_true_iff, N.ltb_lt, existsb_exists.
  intros [_ [Q|(tx & I & Q)]]; [lia|]. apply N.eqb_eq in Q. exists tx. split; [|exact Q].
  pose proof s_all_genuine as A. rewrite Forall_forall in A. apply A, elem_of_list_In, I.
Qed.
Lemma s_attested_typed tx : typed_full_tx tx ->
  forallb (fun a => (fst a <? 2 ^ 256) && (snd a <? 2 ^ 512)) (ctx_atts (s_attested tx)) = true ->
  typed_compact_tx (s_attested tx).
Proof.
  intros T B. destruct (to_compact_typed quick_sha tx quick_fits T) as [A _].
  split; [exact A|]. unfold s_attested in *. cbn [fst snd ctx_atts] in *. split; [vm_compute; reflexivity|].
  split; [cbn [map fst]; apply NoDup_cons_2; [rewrite elem_of_list_singleton; discriminate|apply NoDup_singleton]|].
  cbn [forallb fst snd] in B. rewrite !andb_true_iff, !N.ltb_lt in B. destruct B as ([A1 A2] & [B1 B2] & _).
  repeat constructor; cbn [fst snd]; assumption.
Qed.
Definition s_keys : list N := [1001; 1002; 1003].
Definition s_check (t : compact_tx) : bool := check_attestations quick_sha all_parse s_schnorr t s_keys 2.
Definition s_labels : list alabel :=
  [LMint (s_attested s_mint) 0; LDeliver 0 0; LFlush 0; LCommit 0; LBlock; LDigest 0 0; LDigest 1 0;
   LTx 0 (s_attested s_pay); LDeliver 0 1; LFlush 0; LCommit 0; LBlock; LDigest 0 1].
(** The message of the issue arrives a second time. *)
Definition s_replay : list alabel := s_labels ++ [LDeliver 0 0; LFlush 0; LCommit 0; LBlock].
Definition s_chain (r : aresult) (l : list compact_tx) : bool :=
  match r with YOk y => bool_decide (chain_txs (ys_chain y) = l) && (len (ys_chain y) <? 100) && bool_decide (map as_best (ys_shards y) = [2; 1]) | _ => false end.
Lemma s_chain_ok r l : s_chain r l = true -> exists y, r = YOk y /\ chain_txs (ys_chain y) = l /\ len (ys_chain y) < 100.
Proof.
  destruct r as [y| | |]; intro H; try discriminate H. exists y. split; [reflexivity|].
  cbn [s_chain] in H. apply andb_true_iff in H as [H _]. apply andb_true_iff in H as [H1 H2].
  apply bool_decide_eq_true in H1. apply N.ltb_lt in H2. auto.
Qed.
Lemma s_labels_run : s_chain (asys_run s_check (asys_new rng2 1 4) s_labels) [s_attested s_mint; s_attested s_pay] = true.
Proof. vm_compute. reflexivity. Qed.
Lemma s_replay_run : s_chain (asys_run s_check (asys_new rng2 1 4) s_replay)
  [s_attested s_mint; s_attested s_pay; s_attested s_mint] = true.
Proof. vm_compute. reflexivity. Qed.
Definition backed_b (u : gset N) (cs : list input) : bool :=
  bool_decide (base.NoDup (map (input_hash quick_sha) cs)) && bool_decide (u = list_to_set (map (input_hash quick_sha) cs)).
Lemma backed_b_ok u cs : backed_b u cs = true -> backed_by quick_sha u cs.
Proof.
  unfold backed_b. rewrite andb_true_iff, !bool_decide_eq_true. intros [A ->]. split; [exact A|].
  intro x. rewrite elem_of_list_to_set. reflexivity.
Qed.
Lemma s_labels_typed (ls : list alabel) : (forall l, l ∈ ls -> l ∈ s_labels \/ match l with LTx _ _ | LMint _ _ => False | _ => True end) ->
  (forall i t, LTx i t ∈ ls -> typed_compact_tx t) /\
  (forall t h, LMint t h ∈ ls -> typed_compact_tx t /\ s_check t = true).
Proof.
  intros H. split.
  - intros i t L. apply H in L as [L|[]]. unfold s_labels in L. rewrite elem_of_list_In in L.
    assert (t = s_attested s_pay) as ->.
    { cbn [In] in L. repeat (destruct L as [L|L]; [first [discriminate L | now injection L]|]). destruct L. }
    apply s_attested_typed; [exact s_pay_typed|vm_compute; reflexivity].
  - intros t h L. apply H in L as [L|[]]. unfold s_labels in L. rewrite elem_of_list_In in L.
    assert (t = s_attested s_mint) as ->.
    { cbn [In] in L. repeat (destruct L as [L|L]; [first [discriminate L | now injection L]|]). destruct L. }
    split; [apply s_attested_typed; [exact s_mint_typed|vm_compute; reflexivity]|vm_compute; reflexivity].
Qed.
Lemma once_two a b : ctx_inputs b <> [] -> issued_once [a; b].
Proof.
  intros B [|[|p]] [|[|q]] tp tq P Q I1 I2 _; try reflexivity; cbn in P, Q;
    try discriminate P; try discriminate Q; congruence.
Qed.
(** The hypotheses of the theorem hold of the first run, and 150 circulate in two coins. *)
Lemma supply_case : exists y, sha_fits quick_sha /\ len [1003] < 2 /\
  (forall pk, In pk s_keys -> ~ In pk [1003] -> faithful_key quick_sha all_parse s_schnorr pk) /\
  asys_run (fun t => check_attestations quick_sha all_parse s_schnorr t s_keys 2) (asys_new rng2 1 4) s_labels = YOk y /\
  (forall i t, LTx i t ∈ s_labels -> typed_compact_tx t) /\
  (forall t h, LMint t h ∈ s_labels -> typed_compact_tx t /\ check_attestations quick_sha all_parse s_schnorr t s_keys 2 = true) /\
  len (ys_chain y) + 2 < two64 /\ len (ys_chain y) + 4 < two64 /\
  issued_once (chain_txs (ys_chain y)) /\
  stands_for quick_sha [s_mint; s_pay] (chain_txs (ys_chain y)) /\
  issued [s_mint; s_pay] = 150 /\ len (circulating quick_sha [s_mint; s_pay]) = 2.
Proof.
  destruct (s_chain_ok _ _ s_labels_run) as (y & E & C & L). exists y.
  destruct (s_labels_typed s_labels) as [T1 T2]; [auto|].
  split; [exact quick_fits|]. split; [vm_compute; reflexivity|].
  split; [intros pk Hp _; apply s_faithful; cbn in Hp; lia|].
  split; [exact E|]. split; [exact T1|]. split; [exact T2|].
  split; [change two64 with 18446744073709551616; lia|].
  split; [change two64 with 18446744073709551616; lia|].
  rewrite C. split; [apply once_two; vm_compute; discriminate|].
  split; [repeat constructor|]. split; vm_compute; reflexivity.
Qed.
(** The second: the issue was sent once and 150 were issued, but 300 circulate: the two
    coins of the issue are back although they were spent. *)
Lemma replay_case : exists y, sha_fits quick_sha /\ len [1003] < 2 /\
  (forall pk, In pk s_keys -> ~ In pk [1003] -> faithful_key quick_sha all_parse s_schnorr pk) /\
  asys_run (fun t => check_attestations quick_sha all_parse s_schnorr t s_keys 2) (asys_new rng2 1 4) s_replay = YOk y /\
  (forall i t, LTx i t ∈ s_replay -> typed_compact_tx t) /\
  (forall t h, LMint t h ∈ s_replay -> typed_compact_tx t /\ check_attestations quick_sha all_parse s_schnorr t s_keys 2 = true) /\
  len (ys_chain y) + 2 < two64 /\ len (ys_chain y) + 4 < two64 /\
  length (List.filter (fun l => match l with LMint _ _ => true | _ => false end) s_replay) = 1%nat /\
  issued [s_mint] = 150 /\
  backed_by quick_sha (utxo (chain_txs (ys_chain y))) (s_coins ++ coins_made quick_sha s_pay) /\
  worth (s_coins ++ coins_made quick_sha s_pay) = 300 /\
  (forall c, In c s_coins -> In c (tx_inputs s_pay)).
Proof.
  destruct (s_chain_ok _ _ s_replay_run) as (y & E & C & L). exists y.
  destruct (s_labels_typed s_replay) as [T1 T2].
  { intros l H. unfold s_replay in H. apply elem_of_app in H as [H|H]; [now left|right].
    rewrite elem_of_list_In in H. cbn [In] in H. repeat (destruct H as [<-|H]; [exact Logic.I|]). destruct H. }
  split; [exact quick_fits|]. split; [vm_compute; reflexivity|].
  split; [intros pk Hp _; apply s_faithful; cbn in Hp; lia|].
  split; [exact E|]. split; [exact T1|]. split; [exact T2|].
  split; [change two64 with 18446744073709551616; lia|].
  split; [change two64 with 18446744073709551616; lia|].
  split; [vm_compute; reflexivity|]. split; [vm_compute; reflexivity|].
  rewrite C. split; [apply backed_b_ok; vm_compute; reflexivity|]. split; [vm_compute; reflexivity|].
  intros c H. exact H.
Qed.

(** Two-phase commit: three payments of the same two coins, submitted at once. *)
Definition s_cfg : shard_cfg := shard_cfg_of quick_sha all_parse s_schnorr s_keys 2 (0, 255) true.
Definition s_race : list label :=
  [LNew 50 [s_attested s_mint]; LPrepare 50] ++ finish 1 50 ++
  [LNew 100 [s_attested s_pay]; LPrepare 100; LLock 100 0 true;
   LNew 200 [s_attested (s_payto 8)]; LPrepare 200] ++ finish 1 200 ++
  [LNew 300 [s_attested (s_payto 9)]; LPrepare 300] ++ finish 1 300 ++ finish 1 100.
Definition s_left : list input := coins_made quick_sha s_pay ++ coins_made quick_sha (s_payto 9).
Definition race_b (s : sys) : bool :=
  bool_decide (sy_answers s !! 50 = Some [true]) && bool_decide (sy_answers s !! 100 = Some [true]) &&
  bool_decide (sy_answers s !! 300 = Some [true]) &&
  match sy_nodes s !! 0%nat with Some nd => backed_b (sh_uhs (nd_shard nd)) s_left | None => false end.
Lemma race_case : exists s nd, sha_fits quick_sha /\ len [1003] < 2 /\
  (forall pk, In pk s_keys -> ~ In pk [1003] -> faithful_key quick_sha all_parse s_schnorr pk) /\
  reachable_proper [s_cfg] [∅] 100 s /\
  sy_batches s !! 50 = Some [s_attested s_mint] /\ sy_answers s !! 50 = Some [true] /\
  sy_answers s !! 100 = Some [true] /\ sy_answers s !! 300 = Some [true] /\
  sy_nodes s !! 0%nat = Some nd /\ backed_by quick_sha (sh_uhs (nd_shard nd)) s_left /\
  worth s_left = 300 /\ issued s_txs = 150.
Proof.
  assert (G : match TwoPhaseModel.run [s_cfg] (sys_new [∅] 100) s_race with SOk s => race_b s && bool_decide (sy_batches s !! 50 = Some [s_attested s_mint]) | _ => false end = true)
    by (vm_compute; reflexivity).
  destruct (TwoPhaseModel.run [s_cfg] (sys_new [∅] 100) s_race) as [s| | |] eqn:R; try discriminate G.
  unfold race_b in G. rewrite !andb_true_iff, !bool_decide_eq_true in G.
  destruct G as [[[[A1 A2] A3] A4] A5]. destruct (sy_nodes s !! 0%nat) as [nd|] eqn:N; [|discriminate A4].
  exists s, nd. split; [exact quick_fits|]. split; [vm_compute; reflexivity|].
  split; [intros pk Hp _; apply s_faithful; cbn in Hp; lia|].
  split. { split; [reflexivity|]. exists s_race. split; [|exact R].
    apply proper_check. vm_compute. reflexivity. }
  do 4 (split; [assumption|]). split; [exact N|]. split; [apply backed_b_ok, A4|]. split; vm_compute; reflexivity.
Qed.
