(** What a wallet's coins are, told from the calls made on it and what they returned. *)
From Coq Require Import NArith List Bool.
From stdpp Require Import base decidable list gmap.
From Verif Require Import Base CodecModel TxModel ValidationModel ValidationSpec WalletModel.
Import ListNotations.
Open Scope N_scope.

Definition outpoints (l : list input) : list out_point := map in_prevout l.
Definition worth (l : list input) : N := total (map coin_value l).

(** A coin that is not held yet is added. *)
Definition credit (held : list input) (c : input) : list input :=
  if bool_decide (in_prevout c ∈ outpoints held) then held else c :: held.
(** The coins at these outpoints are gone. *)
Definition remove (gone : list out_point) (held : list input) : list input :=
  List.filter (fun c => negb (bool_decide (in_prevout c ∈ gone))) held.

Definition interval (from to : N) : list N :=
  map (fun k => from + N.of_nat k) (seq 0 (N.to_nat (to - from))).

Section Spec.
  Variable sha : bytes -> hash.
  Variable pub_of : N -> N.
  Variable ssign : N -> hash -> N.

  (** The coins of a seed range, as the shards were seeded with: coin [i] is the only output
      of a transaction that spends the made-up outpoint (0, i). *)
  Definition seed_coin (commit : hash) (val i : N) : input :=
    Input (OutPoint (tx_id sha (FullTx [Input (OutPoint 0 i) (Output 0 val)] [Output commit val] [])) 0)
          (Output commit val).
  Definition seed_coins (commit : hash) (val from to : N) : list input :=
    map (seed_coin commit val) (interval from to).
  (** The seed coins that are not used up. *)
  Definition unused_seeds (w : wallet) : list input :=
    seed_coins (w_seed_commit w) (w_seed_value w) (w_from w) (w_to w).

  (** The outputs of a transaction that this wallet has the key of, as coins. *)
  Definition received (w : wallet) (tx : full_tx) : list input :=
    flat_map (fun i => match nth_error (tx_outputs tx) i with
                       | Some o => if is_ours w (out_commit o)
                                   then [Input (OutPoint (tx_id sha tx) (N.of_nat i)) o] else []
                       | None => []
                       end) (seq 0 (length (tx_outputs tx))).

  (** The coins after a call that returned [o]. *)
  Definition held_after (w : wallet) (held : list input) (c : wcall) (o : wout) : list input :=
    match c with
    | WConfirmTx tx => remove (outpoints (tx_inputs tx)) (fold_left credit (received w tx) held)
    | WConfirmInputs l => fold_left credit l held
    | WSeed sk v f t =>
        match o with
        | OBool true => seed_coins (get_p2pk_witness_commitment sha (pub_of sk)) v f t ++ held
        | _ => held
        end
    | WSeedReadonly c v f t => seed_coins c v f t ++ held
    | WSend _ _ _ _ | WSendN _ _ _ _ | WFan _ _ _ _ _ =>
        match o with OTx (Built tx) => remove (outpoints (tx_inputs tx)) held | _ => held end
    | WKey _ | WMint _ _ | WRestart => held
    end.

  (** A new seed range: the old one is used up, the new coins differ from each other and
      from the coins held. *)
  Definition seeds_fresh (w : wallet) (held : list input) (c : hash) (v f t : N) : Prop :=
    f <= t /\ t < 2 ^ 64 /\ w_from w = w_to w /\
    base.NoDup (outpoints (seed_coins c v f t ++ held)).

  (** Everything in the wallet file fits its C++ type. *)
  Definition file_typed (w : wallet) : Prop :=
    dom c_wallet_file (map_to_list (w_keys w), w_utxos w).

  (** How a wallet is meant to be used. The arguments fit their types; a confirmed
      transaction spends no coin that the wallet still counts as its own; no coin of the
      seed range is credited while it is still in the range; a wallet is not restarted with
      a seed range that is not used up. *)
  Definition meant (w : wallet) (held : list input) (c : wcall) : Prop :=
    match c with
    | WKey _ | WMint _ _ => True
    | WSend a _ _ _ => a < 2 ^ 32
    | WSendN i o _ _ => 0 < i < 2 ^ 64 /\ 0 < o < 2 ^ 64 /\ len held < 2 ^ 64
    | WFan n v _ _ _ => n * v < 2 ^ 64
    | WConfirmTx tx =>
        (forall i, In i (tx_inputs tx) ->
           in_prevout i ∉ outpoints (fold_left credit (received w tx) held)) /\
        (forall i, In i (received w tx) -> in_prevout i ∉ outpoints (unused_seeds w))
    | WConfirmInputs l => forall i, In i l -> in_prevout i ∉ outpoints (unused_seeds w)
    | WSeed sk v f t =>
        f < t -> w_keys w = ∅ ->
        seeds_fresh w held (get_p2pk_witness_commitment sha (pub_of sk)) v f t
    | WSeedReadonly c v f t => seeds_fresh w held c v f t
    | WRestart => w_from w = w_to w /\ file_typed w
    end.

  (** [history w held cs w' held']: the calls [cs], used as meant and with coins worth less
      than 2^64 in total at any time, lead from one wallet and its coins to another. *)
  Inductive history : wallet -> list input -> list wcall -> wallet -> list input -> Prop :=
  | history_nil w held : history w held [] w held
  | history_cons w held c w1 o cs w2 held2 :
      meant w held c ->
      w_step sha pub_of ssign w c = (w1, o) ->
      worth (held_after w held c o) < 2 ^ 64 ->
      history w1 (held_after w held c o) cs w2 held2 ->
      history w held (c :: cs) w2 held2.

  (** The same, from a new wallet. *)
  Definition wallet_after (cs : list wcall) (w : wallet) (held : list input) : Prop :=
    history w_empty [] cs w held.

  (** No assertion fails, no exception, no undefined behaviour, no unreadable file. *)
  Definition fine (o : wout) : Prop :=
    o <> OAssert false /\ o <> OTx OutOfRange /\ o <> OTx DivByZero /\ o <> OLoadFailed.

  (** The change of a transaction: nothing, or one output of some value to a key of the
      wallet. *)
  Definition change_ok (w' : wallet) (change : list output) : Prop :=
    change = [] \/ exists o, change = [o] /\ 1 <= out_value o /\ is_ours w' (out_commit o) = true.

  (** A transaction that takes its inputs from the coins held: different coins, the values
      of inputs and outputs agree, and the wallet's balance falls by what the inputs are
      worth. *)
  Definition built_from (w : wallet) (held : list input) (w' : wallet) (tx : full_tx) : Prop :=
    base.NoDup (outpoints (tx_inputs tx)) /\
    (forall i, In i (tx_inputs tx) -> In i held) /\
    total (in_values tx) = total (out_values tx) /\
    balance w' + total (in_values tx) = balance w.

  (** Signatures made with a key verify, the public key of a key parses, and both fit. *)
  Definition keys_sound (pk_parse : N -> bool) (schnorr : N -> hash -> N -> bool) : Prop :=
    forall sk m, pub_of sk < 2 ^ 256 /\ ssign sk m < 2 ^ 512 /\
      pk_parse (pub_of sk) = true /\ schnorr (pub_of sk) m (ssign sk m) = true.
End Spec.
