(** What the owner of a client has, told from the calls made and what they returned. *)
From Coq Require Import NArith List Bool.
From stdpp Require Import base decidable list gmap.
From Verif Require Import Base CodecModel TxModel ValidationModel ValidationSpec WalletModel WalletSpec
  WatchtowerModel ClientModel.
Import ListNotations.
Open Scope N_scope.

(** The books: the coins the user owns, as far as confirmations tell; those among them that
    are in a transaction the client has made and that is not settled; the places of coins
    that confirmed transactions have spent; the transactions sent; the coins expected. *)
Record books := Books {
  b_own : list input;
  b_tied : list input;
  b_gone : list out_point;
  b_sent : gmap N full_tx;
  b_expected : gmap N input }.
Definition b_new : books := Books [] [] [] ∅ ∅.

Section Spec.
  Variable sha : bytes -> hash.
  Variable pub_of : N -> N.
  Variable ssign : N -> hash -> N.

  Definition first_kept {V} (m : gmap N V) (k : N) (v : V) : gmap N V :=
    if m !! k then m else <[k := v]> m.

  (** Some transaction among [txs] spends the coin [i]. *)
  Definition spent_by_some (txs : gmap N full_tx) (i : input) : Prop :=
    exists id tx, txs !! id = Some tx /\ In i (tx_inputs tx).

  (** The books after a confirmation. [w] tells which outputs are the user's. *)
  Definition settle_sent (w : wallet) (b : books) (id : N) : books :=
    match b_sent b !! id with
    | None => b
    | Some tx =>
        let places := outpoints (tx_inputs tx) in
        Books (remove places (fold_left credit (received sha w tx) (b_own b)))
              (remove places (b_tied b)) (places ++ b_gone b)
              (delete id (b_sent b)) (b_expected b)
    end.
  Definition settle_expected (b : books) (id : N) : books :=
    match b_expected b !! id with
    | None => b
    | Some i => Books (credit (b_own b) i) (b_tied b) (b_gone b) (b_sent b) (delete id (b_expected b))
    end.

  (** [entered c b k o b']: the call [k], which returned [o], takes the books from [b] to
      [b']. Making a transaction ties coins, abandoning one frees those that no other
      transaction uses; neither changes what the user owns. *)
  Definition entered (c : client) (b : books) (k : ccall) (o : cout) (b' : books) : Prop :=
    match k with
    | CKey _ | CRestart => b' = b
    | CCreate _ _ _ | CFan _ _ _ _ =>
        match o with
        | CoTx (Built tx) =>
            b' = Books (b_own b) (tx_inputs tx ++ b_tied b) (b_gone b) (b_sent b) (b_expected b)
        | _ => b' = b
        end
    | CMint _ _ =>
        match o with
        | CoTx (Built tx) =>
            b' = Books (b_own b) (b_tied b) (b_gone b) (first_kept (b_sent b) (tx_id sha tx) tx) (b_expected b)
        | _ => False
        end
    | CImportTx tx =>
        b' = Books (b_own b) (b_tied b) (b_gone b) (first_kept (b_sent b) (tx_id sha tx) tx) (b_expected b)
    | CImportInput i =>
        b' = if is_ours (cl_wallet c) (out_commit (in_data i))
             then Books (b_own b) (b_tied b) (b_gone b) (b_sent b)
                    (first_kept (b_expected b) (op_txid (in_prevout i)) i)
             else b
    | CConfirm id => b' = settle_expected (settle_sent (cl_wallet c) b id) id
    | CAbandon id =>
        match b_sent b !! id with
        | None => b' = b
        | Some tx =>
            b_own b' = b_own b /\ b_gone b' = b_gone b /\ b_expected b' = b_expected b /\
            b_sent b' = delete id (b_sent b) /\
            base.NoDup (b_tied b') /\
            forall i, In i (b_tied b') <->
              In i (b_tied b) /\ (In i (tx_inputs tx) -> spent_by_some (b_sent b') i)
        end
    end.

  (** The transaction spends a coin of the user only if the client has tied it to one, and
      its inputs have no hash in common with other coins of the user. *)
  Definition spends_tied (b : books) (tx : full_tx) : Prop :=
    forall i, In i (tx_inputs tx) ->
      (in_prevout i ∈ outpoints (b_own b) -> In i (b_tied b)) /\
      (forall j, In j (b_tied b) -> input_hash sha i = input_hash sha j -> i = j).
  (** A coin about to be credited is not one that is tied or was spent before. *)
  Definition not_again (b : books) (i : input) : Prop :=
    in_prevout i ∉ outpoints (b_tied b) /\ in_prevout i ∉ b_gone b.

  (** Everything in the two files fits its C++ type. *)
  Definition client_typed (c : client) : Prop :=
    file_typed (cl_wallet c) /\
    dom c_client_file (map_to_list (cl_txs c), map_to_list (cl_inputs c), map_to_list (cl_spend c)).

  (** How a client is meant to be used. *)
  Definition client_meant (c : client) (b : books) (k : ccall) : Prop :=
    match k with
    | CKey _ | CMint _ _ | CImportTx _ | CImportInput _ => True
    | CCreate v _ _ => v < 2 ^ 32
    | CFan n v _ _ => n < 2 ^ 32 /\ v < 2 ^ 32
    | CConfirm id =>
        (forall tx, b_sent b !! id = Some tx ->
           spends_tied b tx /\
           (forall i, In i (received sha (cl_wallet c) tx) -> not_again b i) /\
           (forall i, In i (tx_inputs tx) -> op_txid (in_prevout i) <> tx_id sha tx)) /\
        (forall i, b_expected b !! id = Some i -> not_again b i)
    | CAbandon id => forall tx, b_sent b !! id = Some tx -> spends_tied b tx
    | CRestart => client_typed c
    end.

  (** The coins owned are worth less than 2^64 and have different hashes. *)
  Definition bounded (b : books) : Prop :=
    worth (b_own b) < 2 ^ 64 /\ base.NoDup (map (input_hash sha) (b_own b)).

  Inductive client_history : client -> books -> list ccall -> client -> books -> Prop :=
  | ch_nil c b : client_history c b [] c b
  | ch_cons c b k c1 o b1 ks c2 b2 :
      client_meant c b k ->
      c_step sha pub_of ssign c k = (c1, o) ->
      entered c b k o b1 ->
      bounded b1 ->
      client_history c1 b1 ks c2 b2 ->
      client_history c b (k :: ks) c2 b2.
  Definition client_after (ks : list ccall) (c : client) (b : books) : Prop :=
    client_history cl_new b_new ks c b.

  (** The books agree with what the client shows. *)
  Definition agrees (c : client) (b : books) : Prop :=
    (forall i, In i (b_tied b) -> In i (b_own b)) /\
    cl_balance c + worth (b_tied b) = worth (b_own b) /\
    (len (b_own b) < 2 ^ 64 -> cl_count c + len (b_tied b) = len (b_own b)) /\
    base.NoDup (outpoints (b_own b)) /\ base.NoDup (b_tied b) /\
    (forall p, p ∈ outpoints (b_own b) -> p ∉ b_gone b) /\
    cl_txs c = b_sent b /\ cl_inputs c = b_expected b.

  (** A transaction made by the client: its inputs are coins the user owns, all different,
      none of them tied before, and the values of inputs and outputs agree. *)
  Definition fresh_spend (b : books) (tx : full_tx) : Prop :=
    base.NoDup (tx_inputs tx) /\
    (forall i, In i (tx_inputs tx) -> In i (b_own b) /\ ~ In i (b_tied b)) /\
    total (in_values tx) = total (out_values tx).

  (** A call that does not hand the client a transaction that spends the coin at [p]. *)
  Definition not_sending (p : out_point) (k : ccall) : Prop :=
    match k with CImportTx tx => p ∉ outpoints (tx_inputs tx) | _ => True end.

  (** No exit of the process, no exception, no undefined behaviour. *)
  Definition client_fine (o : cout) : Prop :=
    o <> CoExit /\ o <> CoTx OutOfRange /\ o <> CoTx DivByZero.

  (** [ids]: the transactions that the client asks about and that get the answer yes. *)
  Definition answered_yes (answer : N -> option bool) (c : client) (ids : list N) : Prop :=
    base.NoDup ids /\
    forall id, In id ids <-> answer id = Some true /\ (cl_txs c !! id <> None \/ cl_inputs c !! id <> None).

  (** The states of a transaction begin with one that says it is in a block. *)
  Definition in_a_block (ss : list status_state) : Prop :=
    exists s r, ss = s :: r /\ (su_status s = SUnspent \/ su_status s = SSpent).
End Spec.
