(** C70: the money supply. The vocabulary is in SupplySpec.v; [utxo], [no_double_spend] in
    AtomizerSpec.v; [collides sha texts] says that two different ones of these texts have the same
    hash, [history_texts] are those hashed for the transactions and their coins, [signed_texts]
    those that the sentinels' signatures are for (CollideSpec.v). *)
From Coq Require Import NArith List Bool.
From stdpp Require Import base decidable list gmap.
From Verif Require Import Base CodecModel TxModel TxSpec TxExamples ValidationModel ValidationSpec
  WalletModel WalletExamples SentinelModel SentinelSpec SentinelExamples
  MsgModel AtomizerModel AtomizerSpec AtomizerShardModel AtomizerSystemModel AtomizerShardSpec AtomizerExamples
  LockingShardModel LockingShardSpec TwoPhaseModel TwoPhaseSpec SupplySpec SupplyProofs SupplySystemProofs SupplyExamples
  CollideSpec CollideProofs.
Import ListNotations.
Open Scope N_scope.

(** Any ledger of valid transactions and issues, executed in order without double spend:
    the unspent IDs are the hashes of the coins that were made and not spent, and their
    worth is what was issued. *)
Theorem C70_money_conserved sha pk_parse schnorr h l :
  sha_fits sha -> Forall (genuine sha pk_parse schnorr) h -> stands_for sha h l ->
  no_double_spend l -> issued_once l ->
  (backed_by sha (utxo l) (circulating sha h) /\ worth (circulating sha h) = issued h) \/
  collides sha (history_texts sha h).
Proof. exact (conserved sha pk_parse schnorr h l). Qed.
Print Assumptions C70_money_conserved.

(** The atomizer architecture, with check_attestations in the shards: if fewer than
    [threshold] sentinel keys are [bad] and the others sign only valid transactions and
    issues, then every chain of blocks that issues nothing twice stands for such
    transactions, the money that circulates is the money that was issued, and a shard that
    is up to date holds exactly the coins of its range. Otherwise there is a collision among the
    texts hashed for the transactions vouched for: those of the chain ([h]) and those the shards
    sent to the atomizers ([hs]). *)
Theorem C70_atomizer_partial sha pk_parse schnorr known threshold bad d ranges nodes ls y :
  sha_fits sha -> len bad < threshold ->
  (forall pk, In pk known -> ~ In pk bad -> faithful_key sha pk_parse schnorr pk) ->
  asys_run (fun t => check_attestations sha pk_parse schnorr t known threshold) (asys_new ranges nodes d) ls = YOk y ->
  (forall i t, LTx i t ∈ ls -> typed_compact_tx t) ->
  (forall t h, LMint t h ∈ ls -> typed_compact_tx t /\
     check_attestations sha pk_parse schnorr t known threshold = true) ->
  len (ys_chain y) + 2 < two64 -> len (ys_chain y) + d < two64 ->
  issued_once (chain_txs (ys_chain y)) ->
  (exists hs h, Forall2 (vouched sha pk_parse schnorr) hs (map nt_tx (ys_sent y)) /\
     Forall2 (vouched sha pk_parse schnorr) h (chain_txs (ys_chain y))) /\
  forall hs h, Forall2 (vouched sha pk_parse schnorr) hs (map nt_tx (ys_sent y)) ->
    Forall2 (vouched sha pk_parse schnorr) h (chain_txs (ys_chain y)) ->
    ((stands_for sha h (chain_txs (ys_chain y)) /\
      backed_by sha (utxo (chain_txs (ys_chain y))) (circulating sha h) /\
      worth (circulating sha h) = issued h /\
      forall i s, ys_shards y !! i = Some s -> as_best s = len (ys_chain y) -> forall x,
        x ∈ db_uhs (as_db s) <-> in_range (as_range s) x = true /\ x ∈ map (input_hash sha) (circulating sha h))
     \/ collides sha (history_texts sha hs) \/ collides sha (history_texts sha h)
     \/ collides sha (signed_texts sha hs (map nt_tx (ys_sent y)))
     \/ collides sha (signed_texts sha h (chain_txs (ys_chain y)))).
Proof. exact (chain_money sha pk_parse schnorr known threshold bad d ranges nodes ls y). Qed.
Print Assumptions C70_atomizer_partial.

(** Example: 150 are issued in two coins, which are spent together; two coins worth 150
    circulate. *)
Example C70_case : exists y, sha_fits quick_sha /\ len [1003] < 2 /\
  (forall pk, In pk s_keys -> ~ In pk [1003] -> faithful_key quick_sha all_parse s_schnorr pk) /\
  asys_run (fun t => check_attestations quick_sha all_parse s_schnorr t s_keys 2) (asys_new rng2 1 4) s_labels = YOk y /\
  (forall i t, LTx i t ∈ s_labels -> typed_compact_tx t) /\
  (forall t h, LMint t h ∈ s_labels -> typed_compact_tx t /\ check_attestations quick_sha all_parse s_schnorr t s_keys 2 = true) /\
  len (ys_chain y) + 2 < two64 /\ len (ys_chain y) + 4 < two64 /\
  issued_once (chain_txs (ys_chain y)) /\
  stands_for quick_sha [s_mint; s_pay] (chain_txs (ys_chain y)) /\
  issued [s_mint; s_pay] = 150 /\ len (circulating quick_sha [s_mint; s_pay]) = 2.
Proof. exact supply_case. Qed.
(** No two of the texts hashed for these transactions collide: the theorems give the conservation. *)
Example C70_case_no_collision : ~ collides quick_sha (history_texts quick_sha [s_mint; s_pay]).
Proof. apply apart_all_ok. vm_compute. reflexivity. Qed.

(** Finding: without [issued_once] it is false, and nothing in the atomizer enforces it. The
    attested issue is sent once; delivered again after its coins were spent, it is put into
    another block: the spent coins are back, 300 circulate and 150 were issued. *)
Theorem C70_mint_replay_refuted : exists y, sha_fits quick_sha /\ len [1003] < 2 /\
  (forall pk, In pk s_keys -> ~ In pk [1003] -> faithful_key quick_sha all_parse s_schnorr pk) /\
  asys_run (fun t => check_attestations quick_sha all_parse s_schnorr t s_keys 2) (asys_new rng2 1 4) s_replay = YOk y /\
  (forall i t, LTx i t ∈ s_replay -> typed_compact_tx t) /\
  (forall t h, LMint t h ∈ s_replay -> typed_compact_tx t /\ check_attestations quick_sha all_parse s_schnorr t s_keys 2 = true) /\
  len (ys_chain y) + 2 < two64 /\ len (ys_chain y) + 4 < two64 /\
  length (List.filter (fun l => match l with LMint _ _ => true | _ => false end) s_replay) = 1%nat /\
  issued [s_mint] = 150 /\
  backed_by quick_sha (utxo (chain_txs (ys_chain y))) (s_coins ++ coins_made quick_sha s_pay) /\
  worth (s_coins ++ coins_made quick_sha s_pay) = 300 /\
  (forall c, In c s_coins -> In c (tx_inputs s_pay)).
Proof. exact replay_case. Qed.
Print Assumptions C70_mint_replay_refuted.

(** Finding: two-phase commit. 150 are issued once; of three valid payments of the same
    two coins, submitted at once, two are confirmed to their clients (the double spend of
    C12_system_no_double_spend_refuted) and the shard holds coins worth 300. *)
Theorem C70_two_phase_refuted : exists s nd, sha_fits quick_sha /\ len [1003] < 2 /\
  (forall pk, In pk s_keys -> ~ In pk [1003] -> faithful_key quick_sha all_parse s_schnorr pk) /\
  reachable_proper [s_cfg] [∅] 100 s /\
  sy_batches s !! 50 = Some [s_attested s_mint] /\ sy_answers s !! 50 = Some [true] /\
  sy_answers s !! 100 = Some [true] /\ sy_answers s !! 300 = Some [true] /\
  sy_nodes s !! 0%nat = Some nd /\ backed_by quick_sha (sh_uhs (nd_shard nd)) s_left /\
  worth s_left = 300 /\ issued s_txs = 150.
Proof. exact race_case. Qed.
Print Assumptions C70_two_phase_refuted.
