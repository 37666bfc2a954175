(** What C79 says. *)
From Coq Require Import NArith ZArith Ascii String.
From stdpp Require Import base decidable option list gmap.
From Verif Require Import Base CodecModel TxModel ValidationModel WalletModel ConfigModel.
Open Scope N_scope.

(** The coin with number [k] of the seeds: the only output of the transaction that spends
    the [k]th output of nothing. *)
Definition seed_coin (sha : bytes -> hash) (commit : hash) (value k : N) : input :=
  Input (OutPoint (tx_id sha (FullTx [Input (OutPoint 0 k) (Output 0 value)] [Output commit value] [])) 0)
        (Output commit value).

(** The first bytes, 0 to 255, divided evenly among [n] shards; the last takes the rest. *)
Definition even_range (n i : N) : N * N :=
  (i * (256 / n), if i + 1 =? n then 255 else (i + 1) * (256 / n) - 1).

(** The numbers of the coins a wallet with a seed range may spend. *)
Definition holds_seed (w : wallet) (k : N) : Prop := w_from w <= k < w_to w.

(** The first seed and the number of seeds of each of [n] generators. *)
Definition part_start (from to n i : N) : N := from + i * ((to - from) / n).
Definition part_size (from to n : N) : N := (to - from) / n.
