(** Collisions of the hash function among texts that are named. (That two different texts with
    the same hash exist is no news: there are more texts than hashes. What matters is whether
    two of the texts the system actually hashes are among them.) *)
From Coq Require Import NArith List.
From stdpp Require Import base list.
From Verif Require Import Base CodecModel TxModel TxSpec SupplySpec ConfigModel WalletModel SeedModel SeedSpec.
Import ListNotations.
Open Scope N_scope.

Definition collides {H} (hash : bytes -> H) (texts : list bytes) : Prop :=
  exists x y, x ∈ texts /\ y ∈ texts /\ x <> y /\ hash x = hash y.

(** What is hashed for the ID of a transaction: its inputs and outputs. *)
Definition id_text (tx : full_tx) : bytes := enc (c_vec c_input) (tx_inputs tx) ++ enc (c_vec c_output) (tx_outputs tx).
(** What is hashed for the ID of a coin. *)
Definition coin_text (c : input) : bytes := enc c_input c.
(** What a sentinel signs the hash of: the compact transaction without attestations. *)
Definition attested_text (t : compact_tx) : bytes :=
  enc c_compact_tx (CompactTx (ctx_id t) (ctx_inputs t) (ctx_outputs t) []).

(** All that is hashed for a history of transactions: their IDs, the coins they make and spend. *)
Definition history_texts (sha : bytes -> hash) (h : list full_tx) : list bytes :=
  map id_text h ++ map coin_text (all_made sha h ++ all_spent h).
(** With what was signed for them, and for the compact transactions [l]. *)
Definition signed_texts (sha : bytes -> hash) (h : list full_tx) (l : list compact_tx) : list bytes :=
  map attested_text l ++ map (fun tx => attested_text (to_compact sha tx)) h.

(** What is hashed for the seeds number 0 to n - 1. *)
Definition seed_tx (commit value k : N) : full_tx :=
  FullTx [Input (OutPoint 0 k) (Output 0 value)] [Output commit value] [].
Definition seed_texts (sha : bytes -> hash) (commit value : N) (n : nat) : list bytes :=
  concat (map (fun k => [id_text (seed_tx commit value (N.of_nat k));
                         coin_text (seed_coin sha commit value (N.of_nat k))]) (seq 0 n)).

(** [tx] is genuine and what the attestations of the compact transaction [t] sign is its hash. *)
Definition vouched (sha : bytes -> hash) (pk_parse : N -> bool) (schnorr : N -> hash -> N -> bool)
  (tx : full_tx) (t : compact_tx) : Prop :=
  genuine sha pk_parse schnorr tx /\ ctx_hash sha t = ctx_hash sha (to_compact sha tx).
