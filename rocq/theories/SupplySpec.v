(** What the money in circulation is: coins, their worth, and what was issued. Nothing here
    mentions how transactions are processed. *)
From Coq Require Import NArith List Bool.
From stdpp Require Import base decidable list gmap.
From Verif Require Import Base CodecModel TxModel TxSpec ValidationModel ValidationSpec AtomizerSpec
  SentinelSpec.
Import ListNotations.
Open Scope N_scope.

(** A coin is what spends it: the input with the place it comes from, its owner's commitment
    and its value. *)
Definition worth (coins : list input) : N := total (map (fun c => out_value (in_data c)) coins).

Section Spec.
  Variable sha : bytes -> hash.
  Variable pk_parse : N -> bool.
  Variable schnorr : N -> hash -> N -> bool.

  (** The coins a transaction makes: one per output, that names the transaction and the
      position. *)
  Definition coins_made (tx : full_tx) : list input :=
    imap (fun i o => Input (OutPoint (tx_id sha tx) (N.of_nat i)) o) (tx_outputs tx).
  Definition all_made (h : list full_tx) : list input := concat (map coins_made h).
  Definition all_spent (h : list full_tx) : list input := concat (map tx_inputs h).
  (** The coins that a history made and did not spend. *)
  Definition circulating (h : list full_tx) : list input :=
    List.filter (fun c => negb (bool_decide (c ∈ all_spent h))) (all_made h).

  (** A transaction that issues money has no inputs. *)
  Definition issues (tx : full_tx) : bool := match tx_inputs tx with [] => true | _ => false end.
  Definition issued (h : list full_tx) : N := total (concat (map out_values (List.filter issues h))).

  (** What may be executed: a valid transaction, or one that issues money. *)
  Definition genuine (tx : full_tx) : Prop :=
    typed_full_tx tx /\ (valid_tx sha pk_parse schnorr tx \/ tx_inputs tx = []).
  (** A key whose owner signs only those. *)
  Definition faithful_key (pk : N) : Prop :=
    forall h sg, schnorr pk h sg = true -> exists tx, genuine tx /\ h = ctx_hash sha (to_compact sha tx).

  (** The compact transactions of a history. *)
  Definition stands_for (h : list full_tx) (l : list compact_tx) : Prop := Forall2 (compact_of sha) h l.
End Spec.

(** No issue is executed twice. *)
Definition issued_once (l : list compact_tx) : Prop :=
  forall p q tp tq, l !! p = Some tp -> l !! q = Some tq -> ctx_inputs tp = [] -> ctx_inputs tq = [] ->
    ctx_id tp = ctx_id tq -> p = q.

(** The unspent IDs [u] are the hashes of the coins [cs], each of which is there once. *)
Definition backed_by (sha : bytes -> hash) (u : gset N) (cs : list input) : Prop :=
  base.NoDup (map (input_hash sha) cs) /\ forall x, x ∈ u <-> x ∈ map (input_hash sha) cs.
