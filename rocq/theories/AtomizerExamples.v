(** Concrete histories of the atomizer architecture, and executable forms of the
    hypotheses. *)
From Coq Require Import NArith List Bool Lia.
From stdpp Require Import base decidable list gmap.
From Verif Require Import Base CodecModel TxModel MsgModel AtomizerModel AtomizerShardModel
  AtomizerSystemModel AtomizerSpec AtomizerShardSpec AtomizerProofs AtomizerSmProofs
  AtomizerShardProofs AtomizerCalls AtomizerSystemProofs.
Import ListNotations.
Open Scope N_scope.

Definition ids_honest_b (l : list compact_tx) : bool :=
  forallb (fun t1 => forallb (fun t2 =>
    implb (ctx_id t1 =? ctx_id t2)
      (bool_decide (ctx_inputs t1 = ctx_inputs t2) && bool_decide (ctx_outputs t1 = ctx_outputs t2))) l) l.
Lemma ids_honest_check l : ids_honest_b l = true -> ids_honest l.
Proof.
  intros H t1 t2 H1 H2 E. unfold ids_honest_b in H.
  rewrite forallb_forall in H. apply elem_of_list_In in H1, H2.
  specialize (H t1 H1). rewrite forallb_forall in H. specialize (H t2 H2).
  rewrite E, N.eqb_refl in H. cbn [implb] in H. apply andb_true_iff in H as [A B].
  apply bool_decide_eq_true in A, B. split; assumption.
Qed.

Definition calls_ok_b (h0 d : N) (cs : list call) : bool :=
  forallb (fun c => call_height c + d <? two64) cs && ids_honest_b (inserted cs)
  && (h0 + blocks_asked cs <? two64).
Lemma calls_ok_check h0 d cs : calls_ok_b h0 d cs = true -> calls_ok h0 d cs.
Proof.
  unfold calls_ok_b. intro H. apply andb_true_iff in H as [H H3]. apply andb_true_iff in H as [H1 H2].
  split; [|split].
  - intros c Hc. rewrite forallb_forall in H1. apply N.ltb_lt, H1, elem_of_list_In, Hc.
  - apply ids_honest_check. exact H2.
  - apply N.ltb_lt. exact H3.
Qed.

Definition request_ok_b (d : N) (r : sm_request) : bool :=
  match r with
  | QAgg txs => forallb (fun p => (fst p + d <? two64) &&
                   implb (bool_decide (ctx_inputs (snd p) = [])) (fst p =? 0)) txs
  | _ => true
  end.
Lemma request_ok_check d rs : forallb (request_ok_b d) rs = true -> forall r, r ∈ rs -> request_ok d r.
Proof.
  intros H r Hr. rewrite forallb_forall in H. apply elem_of_list_In in Hr. specialize (H r Hr).
  destruct r as [txs| | |]; cbn in *; try exact I.
  intros o t Ht. rewrite forallb_forall in H. apply elem_of_list_In in Ht. specialize (H _ Ht).
  cbn in H. apply andb_true_iff in H as [A B]. split; [apply N.ltb_lt; exact A|].
  intro E. rewrite bool_decide_eq_true_2 in B by exact E. apply N.eqb_eq. exact B.
Qed.

(** ** The atomizer alone *)

Definition tmint : compact_tx := CompactTx 100 [] [1; 2] [].
Definition tA : compact_tx := CompactTx 101 [1; 2] [3] [].
Definition tB : compact_tx := CompactTx 102 [1] [4] [].
Definition tC : compact_tx := CompactTx 103 [3] [5] [].

Definition outcome (x : aout (atomizer * trace)) : option (list result) :=
  match x with ADone (_, tr) => Some (map snd tr) | _ => None end.

(** Two attestations at different heights complete tA; tB then conflicts and is named;
    tC is accepted. *)
Definition calls1 : list call :=
  [CInsert 5 tA [0]; CMake; CInsert 6 tA [1]; CComplete 5 tB; CComplete 3 tC; CComplete 6 tC; CMake].
Lemma calls1_run : outcome (do_calls (atomizer_new 5 2) calls1) =
  Some [RTx None false; RBlock (Block 6 []) []; RTx None true;
        RTx (Some (TxErr 102 (EInputsSpent [1]))) false;
        RTx (Some (TxErr 103 EStxoRange)) false; RTx None true;
        RBlock (Block 7 [tA; tC]) []].
Proof. vm_compute. reflexivity. Qed.

Lemma calls1_ok : calls_ok 5 2 calls1.
Proof. apply calls_ok_check. vm_compute. reflexivity. Qed.

(** An inputless transaction whose oldest attestation lies above the best height. *)
Lemma inputless_hangs : insert_complete (atomizer_new 0 2) 1 tmint = AHang.
Proof. vm_compute. reflexivity. Qed.
Lemma inputless_undefined : insert (atomizer_new 5 2) 1 tmint [] = AUndefined.
Proof. vm_compute. reflexivity. Qed.

(** Two blocks, one apart and both covered by the cache, spend the same ID. *)
Definition calls2 : list call := [CComplete 0 tA; CMake; CComplete 1 tB; CMake].
Lemma calls2_run : outcome (do_calls (atomizer_new 0 5) calls2) =
  Some [RTx None true; RBlock (Block 1 [tA]) []; RTx None true; RBlock (Block 2 [tB]) []].
Proof. vm_compute. reflexivity. Qed.

(** The indices 7 and 8 stand for no input of tA. *)
Lemma bad_indices : outcome (do_calls (atomizer_new 0 5) [CInsert 0 tA [7; 8]; CMake]) =
  Some [RTx None true; RBlock (Block 1 [tA]) []].
Proof. vm_compute. reflexivity. Qed.

(** tB was refused with inputs_spent, and is reported again two blocks later. *)
Lemma reported_twice : outcome (do_calls (atomizer_new 0 1)
    [CInsert 0 tA [0; 1]; CInsert 0 tB [0]; CMake; CMake]) =
  Some [RTx None true; RTx (Some (TxErr 102 (EInputsSpent [1]))) false;
        RBlock (Block 1 [tA]) []; RBlock (Block 2 []) [TxErr 102 EIncomplete]].
Proof. vm_compute. reflexivity. Qed.

(** A height near 2^64 is taken for a recent one: best height 0, offset 1. *)
Lemma wrapped_height : outcome (do_calls (atomizer_new 0 5) [CComplete (two64 - 1) tA; CMake]) =
  Some [RTx None true; RBlock (Block 1 [tA]) []].
Proof. vm_compute. reflexivity. Qed.

(** ** The state machine *)
Definition requests1 : list sm_request :=
  [QAgg [(0, tmint)]; QMakeBlock; QAgg [(1, tA); (1, tB)]; QMakeBlock; QGetBlock 1; QPrune 2;
   QGetBlock 1; QGetBlock 2].
Definition sm_outcome (x : aout (sm * list (option sm_response))) : option (list (option sm_response)) :=
  match x with ADone (_, xs) => Some xs | _ => None end.
Lemma requests1_run : sm_outcome (sm_run (sm_new 3) requests1) =
  Some [None; Some (SBlock (Block 1 [tmint]) []);
        Some (SErrors [TxErr 102 (EInputsSpent [1])]);
        Some (SBlock (Block 2 [tA]) []);
        Some (SGet (Block 1 [tmint])); None; None; Some (SGet (Block 2 [tA]))].
Proof. vm_compute. reflexivity. Qed.
Lemma requests1_ok : (forall r, r ∈ requests1 -> request_ok 3 r) /\ block_requests requests1 < two64 - 1.
Proof. split; [apply request_ok_check; vm_compute; reflexivity|vm_compute; reflexivity]. Qed.

(** ** A shard *)
Definition events1 : list shard_event :=
  [EvBlock (Block 2 [tA]); EvBlock (Block 1 [tmint]); EvCrashIn (Block 2 [tA]) false; EvRestart;
   EvCrashIn (Block 2 [tA]) true; EvBlock (Block 2 [tA]); EvBlock (Block 3 [tC])].
Lemma events1_run :
  let '(s, bs) := shard_run (ashard_open (0, 255) (Adb None ∅)) events1 in
  map blk_height bs = [1; 2; 3] /\
  bool_decide (5 ∈ db_uhs (as_db s)) = true /\ bool_decide (3 ∈ db_uhs (as_db s)) = false.
Proof. vm_compute. tauto. Qed.

(** leveldb reports that it could not write; the shard goes on. *)
Lemma write_failure :
  let s := fst (ashard_digest_block false (ashard_open (0, 255) (Adb None ∅)) (Block 1 [tmint])) in
  snd (ashard_digest_block false (ashard_open (0, 255) (Adb None ∅)) (Block 1 [tmint])) = true /\
  as_best s = 1 /\ ~ shard_holds (0, 255) [Block 1 [tmint]] (db_uhs (as_db s)).
Proof.
  split; [reflexivity|]. split; [reflexivity|].
  intro H. destruct (H 1) as [_ H1].
  assert (A : in_range (0, 255) 1 = true /\ 1 ∈ utxo (chain_txs [Block 1 [tmint]])).
  { split; [reflexivity|]. apply (proj1 (bool_decide_eq_true _)). vm_compute. reflexivity. }
  apply H1 in A. apply (proj2 (bool_decide_eq_true _)) in A. vm_compute in A. discriminate.
Qed.

(** A read error counts as "unspent": 9 was never created. *)
Lemma read_error :
  let s := fst (ashard_digest_block true (ashard_open (0, 255) (Adb None ∅)) (Block 1 [tmint])) in
  let t := CompactTx 104 [9] [10] [] in
  ashard_digest_tx (fun x => x =? 9) s t = inl (Notif t [0] 1) /\
  ~ truthful (0, 255) [Block 1 [tmint]] t (ashard_digest_tx (fun x => x =? 9) s t).
Proof.
  cbv zeta.
  assert (E : ashard_digest_tx (fun x => x =? 9)
     (fst (ashard_digest_block true (ashard_open (0, 255) (Adb None ∅)) (Block 1 [tmint])))
     (CompactTx 104 [9] [10] []) = inl (Notif (CompactTx 104 [9] [10] []) [0] 1)) by (vm_compute; reflexivity).
  split; [exact E|]. rewrite E. intros [_ [_ [_ [_ [H _]]]]].
  apply (H 9); [apply elem_of_list_here|]. split; [reflexivity|].
  apply (proj1 (bool_decide_eq_false _)). vm_compute. reflexivity.
Qed.

(** ** The system: two shards, one node *)
Definition hi (k : N) : N := N.shiftl 1 255 + k.
Definition rng2 : list (N * N) := [(0, 127); (128, 255)].
Definition ymint : compact_tx := CompactTx 200 [] [1; hi 1; hi 2] [].
Definition yA : compact_tx := CompactTx 201 [1; hi 1] [3; hi 4] [].
Definition yB : compact_tx := CompactTx 202 [hi 1] [hi 5] [].
Definition yC : compact_tx := CompactTx 203 [3] [6] [].

(** yA and yB both get all their attestations before block 2 is made; shard 1 lags. *)
Definition labels1 : list alabel :=
  [LMint ymint 0; LDeliver 0 0; LFlush 0; LCommit 0; LBlock; LDigest 0 0; LDigest 1 0;
   LTx 0 yA; LTx 1 yA; LTx 1 yB; LDeliver 0 1; LDeliver 0 2; LDeliver 0 3; LDeliver 0 2;
   LFlush 0; LCommit 0; LBlock; LDigest 1 1; LCrashShard 0; LDigest 0 1;
   LTx 0 yC; LCrashNode 0; LDeliver 0 4; LFlush 0; LCommit 0; LBlock].
Definition ysum (r : aresult) : option (list (list N) * list N) :=
  match r with
  | YOk y => Some (map (fun b => map ctx_id (blk_txs b)) (ys_chain y), map as_best (ys_shards y))
  | _ => None
  end.
Lemma labels1_run : ysum (asys_run (fun _ => true) (asys_new rng2 1 4) labels1) =
  Some ([[200]; [201]; [203]], [2; 2]).
Proof. vm_compute. reflexivity. Qed.
Definition run_ok_b (r : aresult) (d : N) : bool :=
  match r with
  | YOk y => ids_honest_b (map nt_tx (ys_sent y)) && (len (ys_chain y) + 2 <? two64)
             && (len (ys_chain y) + d <? two64)
  | _ => false
  end.
Lemma run_ok_check r d : run_ok_b r d = true ->
  exists y, r = YOk y /\ ids_honest (map nt_tx (ys_sent y)) /\
    len (ys_chain y) + 2 < two64 /\ len (ys_chain y) + d < two64.
Proof.
  destruct r as [y| | |]; intro H; try discriminate. exists y. split; [reflexivity|].
  cbn [run_ok_b] in H. apply andb_true_iff in H as [H H3]. apply andb_true_iff in H as [H1 H2].
  split; [apply ids_honest_check; exact H1|]. split; apply N.ltb_lt; assumption.
Qed.
Lemma labels1_ok : exists y, asys_run (fun _ => true) (asys_new rng2 1 4) labels1 = YOk y /\
  ids_honest (map nt_tx (ys_sent y)) /\ len (ys_chain y) + 2 < two64 /\ len (ys_chain y) + 4 < two64.
Proof. apply run_ok_check. vm_compute. reflexivity. Qed.

(** Two transactions with one ID: the shards attest different inputs, the node adds the
    attestations up, and the chain spends hi 9, which nobody created. *)
Definition cA : compact_tx := CompactTx 201 [1; hi 9] [3] [].
Definition cB : compact_tx := CompactTx 201 [1; hi 1] [3] [].
Definition labels2 : list alabel :=
  [LMint ymint 0; LDeliver 0 0; LFlush 0; LCommit 0; LBlock; LDigest 0 0; LDigest 1 0;
   LTx 0 cA; LTx 1 cB; LDeliver 0 1; LDeliver 0 2; LFlush 0; LCommit 0; LBlock].
Definition chain_is (r : aresult) (c : list block) : bool :=
  match r with YOk y => bool_decide (ys_chain y = c) | _ => false end.
Lemma chain_is_ok r c : chain_is r c = true -> exists y, r = YOk y /\ ys_chain y = c.
Proof.
  destruct r as [y| | |]; intro H; try discriminate. exists y. split; [reflexivity|].
  apply bool_decide_eq_true in H. exact H.
Qed.
Lemma collision_spends_nothing : exists y,
  asys_run (fun _ => true) (asys_new rng2 1 4) labels2 = YOk y /\
  ~ no_double_spend (chain_txs (ys_chain y)).
Proof.
  destruct (chain_is_ok (asys_run (fun _ => true) (asys_new rng2 1 4) labels2)
              [Block 1 [ymint]; Block 2 [cA]]) as [y [E C]]; [vm_compute; reflexivity|].
  exists y. split; [exact E|]. rewrite C. intro H.
  destruct (H 1%nat cA (hi 9)) as [r [tr [A [B [D _]]]]]; [reflexivity| |].
  { apply elem_of_list_further, elem_of_list_here. }
  destruct r as [|r]; [|lia]. injection A as <-.
  apply (proj2 (bool_decide_eq_true _)) in D. vm_compute in D. discriminate.
Qed.

(** ** The same cases as existence statements *)
Lemma cache_wide_case : exists d cs b1 b2 t1 t2 x r1 r2,
  outcome (do_calls (atomizer_new 0 d) cs) = Some [r1; RBlock b1 []; r2; RBlock b2 []] /\
  blk_height b2 - blk_height b1 < d /\ t1 ∈ blk_txs b1 /\ t2 ∈ blk_txs b2 /\
  x ∈ ctx_inputs t1 /\ x ∈ ctx_inputs t2.
Proof.
  exists 5, calls2, (Block 1 [tA]), (Block 2 [tB]), tA, tB, 1, (RTx None true), (RTx None true).
  split; [exact calls2_run|]. split; [reflexivity|].
  repeat split; apply elem_of_list_here.
Qed.
Lemma indices_case : exists t, ctx_inputs t <> [] /\
  outcome (do_calls (atomizer_new 0 5) [CInsert 0 t [7; 8]; CMake]) =
    Some [RTx None true; RBlock (Block 1 [t]) []].
Proof. exists tA. split; [discriminate|exact bad_indices]. Qed.
Lemma wrapped_height_case : exists t, ctx_inputs t <> [] /\
  outcome (do_calls (atomizer_new 0 5) [CComplete (two64 - 1) t; CMake]) =
    Some [RTx None true; RBlock (Block 1 [t]) []].
Proof. exists tA. split; [discriminate|exact wrapped_height]. Qed.
Lemma total_case :
  (exists t, insert_complete (atomizer_new 0 2) 1 t = AHang) /\
  (exists t, insert (atomizer_new 5 2) 1 t [] = AUndefined).
Proof. split; exists tmint; [exact inputless_hangs|exact inputless_undefined]. Qed.
Lemma one_error_case : exists t1 t2,
  outcome (do_calls (atomizer_new 0 1) [CInsert 0 t1 [0; 1]; CInsert 0 t2 [0]; CMake; CMake]) =
  Some [RTx None true; RTx (Some (TxErr (ctx_id t2) (EInputsSpent [1]))) false;
        RBlock (Block 1 [t1]) []; RBlock (Block 2 []) [TxErr (ctx_id t2) EIncomplete]].
Proof. exists tA, tB. exact reported_twice. Qed.
Lemma collision_case : exists ls y,
  asys_run (fun _ => true) (asys_new rng2 1 4) ls = YOk y /\
  ~ no_double_spend (chain_txs (ys_chain y)).
Proof. exists labels2. exact collision_spends_nothing. Qed.
Lemma write_failure_case : exists r b,
  let s := fst (ashard_digest_block false (ashard_open r (Adb None ∅)) b) in
  snd (ashard_digest_block false (ashard_open r (Adb None ∅)) b) = true /\
  as_best s = 1 /\ ~ shard_holds r [b] (db_uhs (as_db s)).
Proof. exists (0, 255), (Block 1 [tmint]). exact write_failure. Qed.
Lemma read_error_case : exists r b t fails,
  let s := fst (ashard_digest_block true (ashard_open r (Adb None ∅)) b) in
  ashard_digest_tx fails s t = inl (Notif t [0] 1) /\
  ~ truthful r [b] t (ashard_digest_tx fails s t).
Proof. exists (0, 255), (Block 1 [tmint]), (CompactTx 104 [9] [10] []), (fun x => x =? 9). exact read_error. Qed.
