(** What payments between clients are about. *)
From Coq Require Import NArith List Bool.
From stdpp Require Import base decidable list gmap.
From Verif Require Import Base TxModel ValidationModel WalletModel WalletSpec ClientModel ClientSpec.
Import ListNotations.
Open Scope N_scope.

(** The outputs of a transaction that a key can spend. *)
Definition paid_to (sha : bytes -> hash) (tx : full_tx) (payee : N) : list output :=
  List.filter (fun o => out_commit o =? get_p2pk_witness_commitment sha payee) (tx_outputs tx).

(** A coin that the owner of [c] can spend, of a transaction the client did not send itself,
    and that is new to the owner. *)
Definition awaited (c : client) (b : books) (i : input) : Prop :=
  is_ours (cl_wallet c) (out_commit (in_data i)) = true /\
  b_sent b !! (op_txid (in_prevout i) : N) = None /\
  not_again b i /\ in_prevout i ∉ outpoints (b_own b).

(** Coins announced and confirmed one after the other; all announced and then confirmed. *)
Definition one_by_one (l : list input) : list ccall :=
  flat_map (fun i => [CImportInput i; CConfirm (op_txid (in_prevout i))]) l.
Definition together (l : list input) (id : N) : list ccall := map CImportInput l ++ [CConfirm id].
