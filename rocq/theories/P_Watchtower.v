(** The watchtower (C27, C28, C29) and following the block stream (C55). *)
From Coq Require Import NArith List Bool.
From stdpp Require Import base decidable list gmap.
From Verif Require Import Base CodecModel TxModel MsgModel AtomizerModel AtomizerShardModel
  WatchtowerModel WatchtowerSpec WatchtowerProofs WatchtowerExamples.
Import ListNotations.
Open Scope N_scope.

(** ** C27 *)
(** An ID is reported spent or unspent only if the last k blocks say so. *)
Theorem C27_sound k bs id h t :
  let c := fold_left bc_push bs (bc_new k) in
  (check_spent c id = Some (h, t) -> spent_in (last_k k bs) id h t) /\
  (check_unspent c id = Some (h, t) -> unspent_in (last_k k bs) id h t).
Proof. exact (block_cache_sound k bs id h t). Qed.
Print Assumptions C27_sound.

(** If they never spend or create an ID twice, exactly if. *)
Theorem C27_exact k bs id h t : once_in_window k bs ->
  let c := fold_left bc_push bs (bc_new k) in
  (check_spent c id = Some (h, t) <-> spent_in (last_k k bs) id h t) /\
  (check_unspent c id = Some (h, t) <-> unspent_in (last_k k bs) id h t).
Proof. exact (block_cache_exact k bs id h t). Qed.
Print Assumptions C27_exact.
Theorem C27_chain_once k bs : once bs -> once_in_window k bs.
Proof. exact (once_windows k bs). Qed.
Print Assumptions C27_chain_once.

Theorem C27_best_height k bs : bc_best (fold_left bc_push bs (bc_new k)) =
  fold_left (fun m b => N.max m (blk_height b)) bs 0.
Proof. exact (block_cache_best k bs). Qed.
Print Assumptions C27_best_height.

Example C27_case : once [wb1; wb2; wb3] /\
  map (fun id => (check_spent (fold_left bc_push [wb1; wb2; wb3] (bc_new 2)) id,
                  check_unspent (fold_left bc_push [wb1; wb2; wb3] (bc_new 2)) id)) [1; 2; 3; 4; 5; 6; 7] =
  [(Some (2, 101), None); (Some (3, 103), None); (Some (2, 102), None); (None, Some (2, 102));
   (None, Some (3, 103)); (None, Some (3, 103)); (None, None)].
Proof. exact (conj wb_once wb_case). Qed.

(** Without that, a spend in the last k blocks can be missing. *)
Theorem C27_exact_refuted : exists k bs id h t,
  spent_in (last_k k bs) id h t /\ check_spent (fold_left bc_push bs (bc_new k)) id = None.
Proof. exact (ex_intro _ _ (ex_intro _ _ (ex_intro _ _ (ex_intro _ _ (ex_intro _ _ dup_case))))). Qed.
Print Assumptions C27_exact_refuted.

(** ** C28 *)
(** What is found is one of the last k errors and matches. *)
Theorem C28_sound k es id e :
  let c := fold_left ec_push es (ec_new k) in
  (check_err_tx c id = Some e -> e ∈ last_k k es /\ te_id e = id) /\
  (check_err_uhs c id = Some e -> e ∈ last_k k es /\ id ∈ err_ids e).
Proof. exact (error_cache_sound k es id e). Qed.
Print Assumptions C28_sound.

(** Each of the last k errors is found by its transaction, if no k consecutive errors
    share one. *)
Theorem C28_by_tx_partial k es : (forall n, base.NoDup (map te_id (last_k k (take n es)))) ->
  forall e, e ∈ last_k k es -> check_err_tx (fold_left ec_push es (ec_new k)) (te_id e) = Some e.
Proof. exact (error_cache_by_tx k es). Qed.
Print Assumptions C28_by_tx_partial.
(** And by each ID it names, if no two of k consecutive errors name a common one. *)
Theorem C28_by_uhs_partial k es : (forall n, ids_differ (last_k k (take n es))) ->
  forall e id, e ∈ last_k k es -> id ∈ err_ids e ->
  check_err_uhs (fold_left ec_push es (ec_new k)) id = Some e.
Proof. exact (error_cache_by_uhs k es). Qed.
Print Assumptions C28_by_uhs_partial.

Example C28_case :
  (forall n, base.NoDup (map te_id (last_k 2 (take n [e1; e2; e3])))) /\
  (forall n, ids_differ (last_k 2 (take n [e1; e2; e3]))) /\
  map (check_err_tx (fold_left ec_push [e1; e2; e3] (ec_new 2))) [201; 202; 203] = [None; Some e2; Some e3] /\
  map (check_err_uhs (fold_left ec_push [e1; e2; e3] (ec_new 2))) [31; 32; 33] = [None; None; Some e3].
Proof. exact err_case. Qed.

(** In general the property does not hold: evicting an older error about the same
    transaction or ID hides the newer one. *)
Theorem C28_refuted : exists k es e id, e ∈ last_k k es /\
  check_err_tx (fold_left ec_push es (ec_new k)) (te_id e) = None /\
  check_err_uhs (fold_left ec_push es (ec_new k)) id = None /\ id ∈ err_ids e.
Proof.
  exact (ex_intro _ 3 (ex_intro _ twice (ex_intro _ (TxErr 201 (EInputsSpent [31])) (ex_intro _ 31
    (conj (proj1 twice_case) (conj (proj1 (proj2 twice_case))
      (conj (proj2 (proj2 twice_case)) (elem_of_list_here 31 []))))))) ).
Qed.
Print Assumptions C28_refuted.

(** ** C29 *)
(** After any history there is a list of accepted errors, which is what was reported but
    for errors about confirmed transactions, and for each transaction and ID a list of
    states that make up the answers; each such list
    - has one or two states, all for that ID,
    - reports spent and unspent only with support from the last blocks, and errors only
      with support from the last accepted errors,
    - has one state if there is no error about the transaction,
    - reports an error if there is one (and no two are about one transaction), and
    - reports what the last blocks say, if they spend and create no ID twice. *)
Theorem C29_status_partial kb ke os : exists acc states,
  accepted kb os acc /\
  (forall req, wt_status (wt_run (wt_new kb ke) os) req =
     map (fun p => (fst p, concat (map (states (fst p)) (snd p)))) req) /\
  (forall tx id, status_ok (last_k kb (op_blocks os)) (last_k ke acc) (top_height (op_blocks os)) tx id (states tx id)) /\
  (forall tx id, (forall e, e ∈ last_k ke acc -> te_id e <> tx) -> length (states tx id) = 1%nat) /\
  ((forall n, base.NoDup (map te_id (last_k ke (take n acc)))) -> forall e id, e ∈ last_k ke acc ->
     exists x, x ∈ states (te_id e) id /\ su_height x = top_height (op_blocks os) /\
       (if internal (Some e) then su_status x = SInternalError
        else su_status x = SInvalidInput \/ su_status x = STxRejected)) /\
  (once_in_window kb (op_blocks os) -> forall tx id h,
     (spent_in (last_k kb (op_blocks os)) id h tx -> Status SSpent h id ∈ states tx id) /\
     (unspent_in (last_k kb (op_blocks os)) id h tx ->
      (forall h' t', ~ spent_in (last_k kb (op_blocks os)) id h' t') -> Status SUnspent h id ∈ states tx id)).
Proof. exact (wt_status_ok kb ke os). Qed.
Print Assumptions C29_status_partial.

(** Errors are dropped exactly if the last blocks show the transaction to be confirmed. *)
Theorem C29_error_filter kb bs e :
  (repeated_tx (fold_left bc_push bs (bc_new kb)) e = true -> outdated (last_k kb bs) e) /\
  (once_in_window kb bs -> outdated (last_k kb bs) e -> repeated_tx (fold_left bc_push bs (bc_new kb)) e = true).
Proof. exact (conj (repeated_outdated kb bs e) (outdated_repeated kb bs e)). Qed.
Print Assumptions C29_error_filter.

Example C29_case : once (op_blocks wops1) /\
  wt_status (wt_run (wt_new 2 10) wops1) [(102, [3; 4]); (104, [9; 2]); (100, [1])] =
  [(102, [Status SSpent 2 3; Status SUnspent 2 4]);
   (104, [Status SInvalidInput 3 9; Status STxRejected 3 2]);
   (100, [Status SNoHistory 3 1])].
Proof. exact wops1_case. Qed.

(** An ID can get two states: an error, and that the transaction is confirmed. *)
Theorem C29_one_state_refuted : exists kb ke os tx id h1 h2,
  once (op_blocks os) /\
  tx_statuses (wt_run (wt_new kb ke) os) tx [id] = [Status STxRejected h1 id; Status SSpent h2 id].
Proof.
  exact (ex_intro _ 2 (ex_intro _ 10 (ex_intro _ wops1 (ex_intro _ 101 (ex_intro _ 1 (ex_intro _ 3 (ex_intro _ 2
    (conj wb_once (proj1 two_states_case))))))))).
Qed.
Print Assumptions C29_one_state_refuted.

(** A confirmed transaction whose output was spent on has "no history" with respect to it. *)
Theorem C29_spent_on_refuted : exists kb ke os tx id h,
  (exists c, (h, c) ∈ btxs (last_k kb (op_blocks os)) /\ ctx_id c = tx /\ id ∈ ctx_outputs c) /\
  tx_statuses (wt_run (wt_new kb ke) os) tx [id] = [Status SNoHistory h id].
Proof.
  exact (ex_intro _ 2 (ex_intro _ 10 (ex_intro _ [OBlock wb1; OBlock wb2] (ex_intro _ 101 (ex_intro _ 3 (ex_intro _ 2
    spent_on_case)))))).
Qed.
Print Assumptions C29_spent_on_refuted.

(** ** C55 *)
(** A shard that gets a block of the future fetches what it lacks and digests exactly the
    missing blocks and then the one it got; a block of the past changes nothing. *)
Theorem C55_shard_safe chain top ask : honest chain top ask ->
  forall fuel inner n s b n' s', blk_height b < two64 -> as_best s < blk_height b ->
  sh_follow fuel inner ask n s b = Some (n', s') ->
  s' = digest_all s (blocks_after chain (as_best s) (N.to_nat (blk_height b - as_best s - 1)) ++ [b]) /\
  as_best s' = blk_height b.
Proof. exact (sh_follow_safe chain top ask). Qed.
Print Assumptions C55_shard_safe.
Theorem C55_shard_live chain top ask : honest chain top ask -> available chain top ask ->
  forall n s b, blk_height b < two64 -> blk_height b <= top + 1 -> as_best s < blk_height b ->
  exists fuel inner r, sh_follow fuel inner ask n s b = Some r.
Proof. exact (sh_follow_live chain top ask). Qed.
Print Assumptions C55_shard_live.
Theorem C55_shard_old ask fuel inner n s b : as_best s + 1 < two64 -> blk_height b <= as_best s ->
  sh_follow (S fuel) inner ask n s b = Some (n, s).
Proof. exact (sh_follow_old ask fuel inner n s b). Qed.
Print Assumptions C55_shard_old.

(** The watchtower does the same with a block of the future. *)
Theorem C55_watchtower_safe chain top ask : honest chain top ask ->
  forall fuel n last w b n' last' w', blk_height b < two64 -> last < blk_height b ->
  wt_follow fuel ask n last w b = Some (n', last', w') ->
  last' = blk_height b /\
  w' = fold_left wt_add_block (blocks_after chain last (N.to_nat (blk_height b - last - 1)) ++ [b]) w.
Proof. exact (wt_follow_safe chain top ask). Qed.
Print Assumptions C55_watchtower_safe.
Theorem C55_watchtower_live chain top ask : honest chain top ask -> available chain top ask ->
  forall n last w b, blk_height b < two64 -> blk_height b <= top + 1 -> last < blk_height b ->
  exists fuel r, wt_follow fuel ask n last w b = Some r.
Proof. exact (fun H1 H2 n last w b A B C => wt_follow_live chain top ask H1 H2 _ n last w b A B C eq_refl). Qed.
Print Assumptions C55_watchtower_live.

Example C55_case : (honest wchain 3 wask /\ available wchain 3 wask) /\
  fsum (wt_follow 10 wask 0 0 (wt_new 5 5) wb3) = Some (4%nat, 3, [wb1; wb2; wb3]) /\
  sfsum (sh_follow 5 10 wask 0 (ashard_open (0, 255) (Adb None ∅)) wb3) =
    Some (4%nat, 3, [false; false; false; true; true; true]).
Proof. exact (conj wask_ok (conj wfollow_case sfollow_case)). Qed.

(** But a block it has already seen makes it wait for ever. *)
Theorem C55_watchtower_old_refuted chain top ask : honest chain top ask ->
  forall fuel n last w b, last + 1 < two64 -> top + 1 < two64 -> blk_height b <= last ->
  wt_follow fuel ask n last w b = None.
Proof. exact (wt_follow_old chain top ask). Qed.
Print Assumptions C55_watchtower_old_refuted.
