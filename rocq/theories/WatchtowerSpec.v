(** What a watchtower should know, in terms of the blocks and errors it was given. *)
From Coq Require Import NArith List Bool.
From stdpp Require Import base decidable list gmap.
From Verif Require Import Base CodecModel TxModel MsgModel AtomizerModel AtomizerShardModel WatchtowerModel.
Import ListNotations.
Open Scope N_scope.

(** The last [k] elements; all of them if [k] is 0. *)
Definition last_k {A} (k : N) (l : list A) : list A :=
  if k =? 0 then l else drop (length l - N.to_nat k) l.

(** The transactions of some blocks, with their heights, in order. *)
Definition btxs (bs : list block) : list (N * compact_tx) :=
  concat (map (fun b => map (pair (blk_height b)) (blk_txs b)) bs).

(** [id] is spent by the transaction [tx] at height [h]. *)
Definition spent_in (bs : list block) (id h tx : N) : Prop :=
  exists c, (h, c) ∈ btxs bs /\ ctx_id c = tx /\ id ∈ ctx_inputs c.
(** [id] is created by the transaction [tx] at height [h], and no later one spends it. *)
Definition unspent_in (bs : list block) (id h tx : N) : Prop :=
  exists pre c post, btxs bs = pre ++ (h, c) :: post /\ ctx_id c = tx /\ id ∈ ctx_outputs c /\
    forall h' c', (h', c') ∈ post -> id ∉ ctx_inputs c'.

(** No ID is spent twice or created twice, as in the blocks of the atomizer (C21). *)
Definition once (bs : list block) : Prop :=
  base.NoDup (concat (map (fun p => ctx_inputs (snd p)) (btxs bs))) /\
  base.NoDup (concat (map (fun p => ctx_outputs (snd p)) (btxs bs))).

(** Histories of a watchtower. *)
Inductive wt_op :=
| OBlock (b : block)
| OErrors (es : list tx_err).
Definition wt_do (w : watchtower) (o : wt_op) : watchtower :=
  match o with
  | OBlock b => wt_add_block w b
  | OErrors es => wt_add_errors w es
  end.
Definition wt_run (w : watchtower) (os : list wt_op) : watchtower := fold_left wt_do os w.
Definition op_blocks (os : list wt_op) : list block :=
  concat (map (fun o => match o with OBlock b => [b] | _ => [] end) os).

(** An error about a transaction that one of the blocks shows to be confirmed: it spends
    there an ID that the error names, or creates it. *)
Definition outdated (bs : list block) (e : tx_err) : Prop :=
  exists id h, id ∈ err_ids e /\ (spent_in bs id h (te_id e) \/ unspent_in bs id h (te_id e)).

(** [acc]: the errors that were taken in, in order: all that were delivered, but for
    outdated ones. [kb] is the size of the block cache. *)
Inductive accepted (kb : N) : list wt_op -> list tx_err -> Prop :=
| acc_nil : accepted kb [] []
| acc_block os acc b : accepted kb os acc -> accepted kb (os ++ [OBlock b]) acc
| acc_errors os acc es keep :
    accepted kb os acc ->
    (forall e, keep e = false -> outdated (last_k kb (op_blocks os)) e) ->
    accepted kb (os ++ [OErrors es]) (acc ++ List.filter keep es).

(** An archiver that only hands out blocks of one chain, each under its height. *)
Definition honest (chain : N -> block) (top : N) (ask : archive) : Prop :=
  forall n h b, ask n h = Some b -> b = chain h /\ blk_height b = h /\ 1 <= h <= top.
(** It has every block at some time, and from then on. *)
Definition available (chain : N -> block) (top : N) (ask : archive) : Prop :=
  forall h, 1 <= h <= top -> exists n0, forall n, (n0 <= n)%nat -> ask n h = Some (chain h).
(** The blocks at heights [from+1 .. from+n]. *)
Definition blocks_after (chain : N -> block) (from : N) (n : nat) : list block :=
  map (fun i => chain (from + N.of_nat i)) (seq 1 n).

(** The greatest height. *)
Definition top_height (bs : list block) : N := fold_left (fun m b => N.max m (blk_height b)) bs 0.

(** No ID is spent twice or created twice within any k consecutive blocks. *)
Definition once_in_window (k : N) (bs : list block) : Prop :=
  forall n, once (last_k k (take n bs)).

(** No two of the errors name a common ID. *)
Definition ids_differ (l : list tx_err) : Prop :=
  forall i j e f id, l !! i = Some e -> l !! j = Some f -> id ∈ err_ids e -> id ∈ err_ids f -> i = j.

(** What a list of states says about one ID. *)
Record status_ok (bs : list block) (errs : list tx_err) (best tx id : N) (l : list status_state) : Prop := {
  so_some : l <> [];
  so_two : (length l <= 2)%nat;
  so_id : forall x, x ∈ l -> su_id x = id;
  so_spent : forall x, x ∈ l -> su_status x = SSpent -> spent_in bs id (su_height x) tx;
  so_unspent : forall x, x ∈ l -> su_status x = SUnspent -> unspent_in bs id (su_height x) tx;
  so_internal : forall x, x ∈ l -> su_status x = SInternalError -> su_height x = best /\
    exists e, e ∈ errs /\ te_id e = tx /\ (te_info e = ESync \/ te_info e = EStxoRange);
  so_invalid : forall x, x ∈ l -> su_status x = SInvalidInput -> su_height x = best /\
    (exists e, e ∈ errs /\ te_id e = tx) /\ (exists e, e ∈ errs /\ id ∈ err_ids e);
  so_rejected : forall x, x ∈ l -> su_status x = STxRejected -> su_height x = best /\
    exists e, e ∈ errs /\ te_id e = tx;
  so_nothing : forall x, x ∈ l -> su_status x = SNoHistory -> su_height x = best /\ length l = 1%nat;
  (* two states: the first an error, the second from a block *)
  so_both : forall x y, l = [x; y] ->
    (su_status x = SInternalError \/ su_status x = SInvalidInput \/ su_status x = STxRejected) /\
    (su_status y = SSpent \/ su_status y = SUnspent) }.

(** A shard digests some blocks. *)
Definition digest_all (s : ashard) (bs : list block) : ashard :=
  fold_left (fun s b => fst (ashard_digest_block true s b)) bs s.
