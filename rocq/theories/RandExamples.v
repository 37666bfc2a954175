(** Concrete cases for property C97: the source with the hash function of the code. *)
From Coq Require Import NArith List Bool Lia.
From stdpp Require Import base option list.
From Verif Require Import Base CodecModel CodecProofs RandModel RandSpec RandProofs ShaModel.
Import ListNotations.
Open Scope N_scope.

Lemma add32_lt a b : add32 a b < 2 ^ 32.
Proof. apply N.mod_lt. discriminate. Qed.

Lemma eight_length k0 k1 k2 k3 k4 k5 k6 k7 v : length (eight k0 k1 k2 k3 k4 k5 k6 k7 v) = length v.
Proof.
  destruct v as [|a [|b [|c [|d [|e [|f [|g [|h [|]]]]]]]]]; done.
Qed.

Lemma sha_proper : proper transform initial.
Proof.
  split.
  - split; [done|]. repeat constructor.
  - intros s b [L _]. unfold transform.
    set (v := sixteen _ _ (sixteen _ _ _)). assert (Lv : length v = 8%nat).
    { unfold v, sixteen. by rewrite !eight_length. }
    clearbody v. split; [rewrite zip_with_length; lia|].
    clear L Lv. revert v. induction s as [|x s IH]; intros [|y v]; cbn; constructor; [apply add32_lt|apply IH].
Qed.

(** A seed: the bytes 1 .. 32. *)
Notation seed32 := (map N.of_nat (seq 1 32)).
Notation src := (open_source transform initial true (Some (seed32 ++ [7]))).
Notation nums m := (option_map (fun r => fst (draws transform m r)) src).
