(** Proofs about the 256-bit arithmetic. *)
From Coq Require Import Arith NArith List Lia.
From stdpp Require Import base list.
From Verif Require Import Base CodecModel CodecProofs EvmMathModel EvmMathSpec.
Import ListNotations.
Open Scope N_scope.

Notation M := (2 ^ 256).

Lemma land255 n : N.land n 255 = n mod 256.
Proof. change 255 with (N.ones 8). by rewrite N.land_ones. Qed.

Lemma le_value_snoc b x : le_value (b ++ [x]) = le_value b + x * 256 ^ len b.
Proof.
  induction b as [|y b IH]; cbn [app le_value].
  - cbn. lia.
  - rewrite IH, len_cons, N.add_1_l, N.pow_succ_r'. lia.
Qed.

Lemma number_be b : number b = be_value b.
Proof.
  unfold be_value. induction b as [|x b IH]; [done|]. cbn [rev number].
  rewrite le_value_snoc, IH. unfold len. rewrite rev_length. lia.
Qed.

Lemma number_le b : number (rev b) = le_value b.
Proof. rewrite number_be. unfold be_value. by rewrite rev_involutive. Qed.

Lemma pow256 n : 256 ^ N.of_nat n = 2 ^ (8 * N.of_nat n).
Proof. change 256 with (2 ^ 8). by rewrite N.pow_mul_r. Qed.

Lemma pow256_32 : 256 ^ 32 = M.
Proof. reflexivity. Qed.

Lemma number_bound b : Forall is_byte b -> number b < 256 ^ len b.
Proof.
  intros F. rewrite number_be. unfold be_value.
  assert (B : Forall is_byte (rev b)) by by apply Forall_rev.
  apply le_value_bound in B. rewrite rev_length in B. exact B.
Qed.

Lemma word_bound b : word b -> number b < M.
Proof. intros [L F]. apply number_bound in F. unfold len in F. rewrite L in F. exact F. Qed.

(** ** Addition *)

Lemma add_loop_length l r c : length l = length r -> length (add_loop l r c) = length l.
Proof.
  revert r c. induction l as [|a l IH]; intros [|b r] c; cbn; try done.
  intros H. rewrite IH; lia.
Qed.

Lemma add_loop_bytes l r c : Forall is_byte (add_loop l r c).
Proof.
  revert r c. induction l as [|a l IH]; intros [|b r] c; cbn [add_loop]; constructor; [|by apply IH].
  rewrite land255. apply N.mod_lt. lia.
Qed.

Lemma add_loop_value l r c : length l = length r -> Forall is_byte l -> Forall is_byte r -> c <= 1 ->
  exists k, le_value (add_loop l r c) + k * 256 ^ len l = le_value l + le_value r + c.
Proof.
  revert r c. induction l as [|a l IH]; intros [|b r] c L FL FR C; try done.
  - exists c. cbn. lia.
  - inversion FL as [|? ? A FL']; inversion FR as [|? ? B FR']; subst.
    cbn [add_loop le_value]. rewrite land255, len_cons, N.add_1_l, N.pow_succ_r'.
    set (t := a + b + c).
    assert (T : t = t mod 256 + 256 * (if 255 <? t then 1 else 0)).
    { unfold is_byte in *. destruct (N.ltb_spec 255 t) as [G|G].
      - assert (Q : t / 256 = 1).
        { symmetry. apply (N.div_unique t 256 1 (t - 256)); unfold t; lia. }
        pose proof (N.div_mod t 256). lia.
      - rewrite N.mod_small; lia. }
    destruct (IH r (if 255 <? t then 1 else 0)) as [k K]; [by inversion L|done|done|destruct (_ <? _); lia|].
    exists k. unfold t in *. lia.
Qed.

Lemma add256_word l r : word l -> word r -> word (add256 l r).
Proof.
  intros [L1 F1] [L2 F2]. unfold add256. split.
  - rewrite rev_length, add_loop_length; rewrite !rev_length; lia.
  - apply Forall_rev, add_loop_bytes.
Qed.

Lemma mod_of_add a b k : a < M -> a + k * M = b -> a = b mod M.
Proof. intros A E. apply (N.mod_unique b M k a); lia. Qed.

Lemma add256_ok l r : word l -> word r -> number (add256 l r) = (number l + number r) mod M.
Proof.
  intros W1 W2. pose proof (word_bound _ (add256_word _ _ W1 W2)) as B.
  destruct W1 as [L1 F1], W2 as [L2 F2].
  destruct (add_loop_value (rev l) (rev r) 0) as [k K]; rewrite ?rev_length; try lia;
    try (by apply Forall_rev).
  apply (mod_of_add _ _ k); [done|]. unfold add256 in *. rewrite number_le.
  unfold len in K. rewrite rev_length, L1 in K. change (256 ^ N.of_nat 32) with M in K.
  rewrite K, <- !number_le, !rev_involutive. lia.
Qed.

(** ** Subtraction *)

Lemma sub_loop_length l r c : length l = length r -> length (sub_loop l r c) = length l.
Proof.
  revert r c. induction l as [|a l IH]; intros [|b r] c; cbn; try done.
  intros H. rewrite IH; lia.
Qed.

Lemma sub_loop_bytes l r c : Forall is_byte (sub_loop l r c).
Proof.
  revert r c. induction l as [|a l IH]; intros [|b r] c; cbn [sub_loop]; constructor; [|by apply IH].
  rewrite land255. apply N.mod_lt. lia.
Qed.

Lemma sub_loop_value l r c : length l = length r -> Forall is_byte l -> Forall is_byte r -> c <= 1 ->
  exists k, le_value (sub_loop l r c) + le_value r + c = le_value l + k * 256 ^ len l.
Proof.
  revert r c. induction l as [|a l IH]; intros [|b r] c L FL FR C; try done.
  - exists c. cbn. lia.
  - inversion FL as [|? ? A FL']; inversion FR as [|? ? B FR']; subst.
    cbn [sub_loop le_value]. rewrite land255, len_cons, N.add_1_l, N.pow_succ_r'.
    set (t := a + 256 - (b + c)).
    assert (T : t mod 256 + 256 = t + 256 * (if t <=? 255 then 1 else 0)).
    { unfold is_byte in *. destruct (N.leb_spec t 255) as [G|G].
      - rewrite N.mod_small; lia.
      - assert (Q : t / 256 = 1).
        { symmetry. apply (N.div_unique t 256 1 (t - 256)); unfold t in *; lia. }
        pose proof (N.div_mod t 256). lia. }
    assert (T2 : t + (b + c) = a + 256) by (unfold t, is_byte in *; lia).
    destruct (IH r (if t <=? 255 then 1 else 0)) as [k K]; [by inversion L|done|done|destruct (_ <=? _); lia|].
    exists k. lia.
Qed.

Lemma sub256_word l r : word l -> word r -> word (sub256 l r).
Proof.
  intros [L1 F1] [L2 F2]. unfold sub256. split.
  - rewrite rev_length, sub_loop_length; rewrite !rev_length; lia.
  - apply Forall_rev, sub_loop_bytes.
Qed.

Lemma sub256_ok l r : word l -> word r ->
  number (sub256 l r) = (number l + (M - number r)) mod M.
Proof.
  intros W1 W2. pose proof (word_bound _ (sub256_word _ _ W1 W2)) as B.
  pose proof (word_bound _ W2) as B2. pose proof (word_bound _ W1) as B1.
  destruct W1 as [L1 F1], W2 as [L2 F2].
  destruct (sub_loop_value (rev l) (rev r) 0) as [k K]; rewrite ?rev_length; try lia;
    try (by apply Forall_rev).
  unfold len in K. rewrite rev_length, L1 in K. change (256 ^ N.of_nat 32) with M in K.
  rewrite <- !number_le, !rev_involutive in K. fold (sub256 l r) in K.
  rewrite !N.add_0_r in K.
  assert (P : M <> 0) by done.
  replace (number l + (M - number r)) with
    (number (sub256 l r) + (number l + (M - number r) - number (sub256 l r))).
  2: { destruct k as [|k]; [lia|]. destruct k as [k|k|]; lia. }
  assert (k = 0 \/ k = 1) as [-> | ->] by (destruct k as [|[k|k|]]; lia).
  - apply (N.mod_unique _ M 1); lia.
  - apply (N.mod_unique _ M 0); lia.
Qed.

(** When nothing is borrowed it is the difference. *)
Lemma sub256_exact l r : word l -> word r -> number r <= number l ->
  number (sub256 l r) = number l - number r.
Proof.
  intros W1 W2 H. rewrite sub256_ok by done. pose proof (word_bound _ W1).
  symmetry. apply (N.mod_unique _ M 1); lia.
Qed.

Lemma add256_exact l r : word l -> word r -> number l + number r < M ->
  number (add256 l r) = number l + number r.
Proof. intros W1 W2 H. rewrite add256_ok by done. by apply N.mod_small. Qed.

(** ** Shift *)

Lemma u256_word v : word (u256 v).
Proof. split; [apply be_bytes_length|apply be_bytes_is_byte]. Qed.

Lemma u256_ok v : v < M -> number (u256 v) = v.
Proof. intros H. rewrite number_be. apply be_value_bytes. exact H. Qed.

Lemma number_app a b : number (a ++ b) = number a * 256 ^ len b + number b.
Proof.
  induction a as [|x a IH]; cbn [app number]; [lia|].
  rewrite IH, len_app, N.pow_add_r. lia.
Qed.

Lemma number_zeros k : number (repeat 0 k) = 0.
Proof. induction k as [|k IH]; [done|]. cbn [repeat number]. rewrite IH. lia. Qed.

Lemma shl256_shape l k : length l = 32%nat -> (k < 32)%nat -> shl256 l k = skipn k l ++ repeat 0 k.
Proof.
  intros L K. unfold shl256. destruct (Nat.leb_spec 32 k); [lia|].
  apply nth_ext with (d := 0) (d' := 0).
  { rewrite map_length, seq_length, app_length, skipn_length, repeat_length. lia. }
  intros n N. rewrite map_length, seq_length in N.
  rewrite (nth_indep _ 0 ((fun i => if (i + k <? 32)%nat then byte_at l (i + k) else 0) 0%nat))
    by (rewrite map_length, seq_length; lia).
  rewrite (map_nth (fun i => if (i + k <? 32)%nat then byte_at l (i + k) else 0)).
  rewrite seq_nth by done. rewrite Nat.add_0_l.
  destruct (Nat.ltb_spec (n + k) 32) as [G|G].
  - rewrite app_nth1 by (rewrite skipn_length; lia). unfold byte_at.
    rewrite <- (firstn_skipn k l) at 1. rewrite app_nth2; rewrite firstn_length; [|lia].
    f_equal. lia.
  - rewrite app_nth2; rewrite skipn_length; [|lia].
    symmetry. destruct (Nat.lt_ge_cases (n - (32 - k)) k) as [Q|Q].
    + rewrite L. apply nth_repeat.
    + lia.
Qed.

Lemma shl256_word l k : word l -> word (shl256 l k).
Proof.
  intros [L F]. destruct (Nat.lt_ge_cases k 32) as [K|K].
  - rewrite shl256_shape by done. split.
    + rewrite app_length, skipn_length, repeat_length. lia.
    + apply Forall_app. split; [by apply Forall_drop|]. apply Forall_forall. intros x X.
      apply elem_of_list_In, repeat_spec in X. subst. unfold is_byte. lia.
  - unfold shl256. destruct (Nat.leb_spec 32 k); [|lia]. split; [done|].
    apply Forall_forall. intros x X. apply elem_of_list_In, repeat_spec in X. subst. unfold is_byte. lia.
Qed.

Lemma shl256_ok l k : word l -> number (shl256 l k) = (number l * 256 ^ N.of_nat k) mod M.
Proof.
  intros W. pose proof W as [L F]. destruct (Nat.lt_ge_cases k 32) as [K|K].
  - pose proof (word_bound _ (shl256_word l k W)) as B.
    rewrite shl256_shape in * by done.
    assert (E : number l = number (firstn k l) * 256 ^ N.of_nat (32 - k) + number (skipn k l)).
    { rewrite <- (firstn_skipn k l) at 1. rewrite number_app. unfold len. rewrite skipn_length, L. done. }
    rewrite number_app, number_zeros, len_repeat in *. rewrite E.
    apply (N.mod_unique _ M (number (firstn k l))); [lia|].
    assert (P : 256 ^ N.of_nat (32 - k) * 256 ^ N.of_nat k = M).
    { rewrite <- N.pow_add_r. replace (N.of_nat (32 - k) + N.of_nat k) with 32 by lia. done. }
    rewrite <- P. lia.
  - unfold shl256. destruct (Nat.leb_spec 32 k); [|lia]. rewrite number_zeros.
    replace (N.of_nat k) with (32 + N.of_nat (k - 32)) by lia.
    rewrite N.pow_add_r, pow256_32.
    replace (number l * (M * 256 ^ N.of_nat (k - 32))) with (number l * 256 ^ N.of_nat (k - 32) * M) by lia.
    by rewrite N.mod_mul.
Qed.

(** ** Multiplication *)

Lemma zero_word : word (repeat 0 32).
Proof.
  split; [done|]. apply Forall_forall. intros x X. apply elem_of_list_In, repeat_spec in X. subst.
  unfold is_byte. lia.
Qed.

Definition sum (f : nat -> N) (ix : list nat) : N := fold_right (fun i a => f i + a) 0 ix.

Lemma number_sum b : number b = sum (fun i => byte_at b i * 256 ^ N.of_nat (length b - 1 - i)) (seq 0 (length b)).
Proof.
  induction b as [|x b IH]; [done|]. cbn [number length seq sum fold_right].
  rewrite IH. unfold sum. f_equal.
  - unfold byte_at. cbn [nth]. f_equal. f_equal. unfold len. f_equal. lia.
  - rewrite <- seq_shift. clear IH.
    assert (G : forall ix, fold_right (fun i a => byte_at b i * 256 ^ N.of_nat (length b - 1 - i) + a) 0 ix =
      fold_right (fun i a => byte_at (x :: b) i * 256 ^ N.of_nat (S (length b) - 1 - i) + a) 0 (map S ix)).
    { induction ix as [|i ix IH]; [done|]. cbn [fold_right map]. rewrite IH. f_equal.
      unfold byte_at. cbn [nth]. f_equal. f_equal. f_equal. lia. }
    apply G.
Qed.

Lemma byte_at_byte b i : word b -> byte_at b i < 256.
Proof.
  intros [L F]. unfold byte_at. destruct (Nat.lt_ge_cases i (length b)) as [H|H].
  - rewrite Forall_forall in F. apply F. apply elem_of_list_In, nth_In. done.
  - rewrite nth_overflow by done. lia.
Qed.

Lemma mul_steps l r i ix row : word l -> word r -> (i < 32)%nat -> (forall j, j ∈ ix -> (j < 32)%nat) -> word row ->
  word (fold_left (mul_step l r i) ix row) /\
  number (fold_left (mul_step l r i) ix row) =
    (number row + byte_at l i * 256 ^ N.of_nat (31 - i) *
       sum (fun j => byte_at r j * 256 ^ N.of_nat (31 - j)) ix) mod M.
Proof.
  intros WL WR I. revert row. induction ix as [|j ix IH]; intros row J WW.
  - cbn. split; [done|]. rewrite N.mul_0_r, N.add_0_r, N.mod_small; [done|]. by apply word_bound.
  - cbn [fold_left].
    assert (JJ : (j < 32)%nat) by (apply J; by left).
    assert (ST : word (mul_step l r i row j) /\ number (mul_step l r i row j) =
      (number row + byte_at l i * 256 ^ N.of_nat (31 - i) * (byte_at r j * 256 ^ N.of_nat (31 - j))) mod M).
    { unfold mul_step. destruct (N.eqb_spec (byte_at r j) 0) as [Z|Z].
      - split; [done|]. rewrite Z, N.mul_0_l, N.mul_0_r, N.add_0_r, N.mod_small; [done|]. by apply word_bound.
      - replace (32 - i - 1)%nat with (31 - i)%nat by lia. replace (32 - j - 1)%nat with (31 - j)%nat by lia.
        assert (E : byte_at l i * 256 ^ N.of_nat (31 - i) * (byte_at r j * 256 ^ N.of_nat (31 - j)) =
          byte_at l i * byte_at r j * 256 ^ N.of_nat (31 - i + (31 - j))).
        { rewrite Nat2N.inj_add, N.pow_add_r. lia. }
        rewrite E. destruct (Nat.leb_spec 32 (31 - i + (31 - j))) as [G|G].
        + split; [done|].
          replace (N.of_nat (31 - i + (31 - j))) with (32 + N.of_nat (31 - i + (31 - j) - 32)) by lia.
          rewrite N.pow_add_r, pow256_32.
          set (p := 256 ^ _).
          replace (byte_at l i * byte_at r j * (M * p)) with (byte_at l i * byte_at r j * p * M) by lia.
          rewrite N.mod_add by done. rewrite N.mod_small; [done|]. by apply word_bound.
        + assert (WS : word (shl256 (u256 (byte_at l i * byte_at r j)) (31 - i + (31 - j))))
            by (apply shl256_word, u256_word).
          split; [by apply add256_word|].
          rewrite add256_ok, shl256_ok by (done || apply u256_word).
          rewrite u256_ok. 2:{ pose proof (byte_at_byte l i WL). pose proof (byte_at_byte r j WR).
            assert (byte_at l i * byte_at r j < 256 * 256) by nia.
            eapply N.lt_trans; [eassumption|]. reflexivity. }
          rewrite N.add_mod_idemp_r by done. done. }
    destruct ST as [S1 S2]. destruct (IH (mul_step l r i row j)) as [H1 H2]; [intros k K; apply J; by right|done|].
    split; [done|]. rewrite H2, S2. rewrite N.add_mod_idemp_l by done. f_equal. cbn [sum fold_right].
    unfold sum. lia.
Qed.

Lemma in_seq32 j : j ∈ seq 0 32 -> (j < 32)%nat.
Proof. rewrite elem_of_list_In, in_seq. lia. Qed.

Lemma mul_rows l r ix ret : word l -> word r -> (forall j, j ∈ ix -> (j < 32)%nat) -> word ret ->
  word (fold_left (mul_row l r) ix ret) /\
  number (fold_left (mul_row l r) ix ret) =
    (number ret + number r * sum (fun i => byte_at l i * 256 ^ N.of_nat (31 - i)) ix) mod M.
Proof.
  intros WL WR. revert ret. induction ix as [|i ix IH]; intros ret J WW.
  - cbn. split; [done|]. rewrite N.mul_0_r, N.add_0_r, N.mod_small; [done|]. by apply word_bound.
  - cbn [fold_left].
    assert (I : (i < 32)%nat) by (apply J; by left).
    assert (ST : word (mul_row l r ret i) /\ number (mul_row l r ret i) =
      (number ret + number r * (byte_at l i * 256 ^ N.of_nat (31 - i))) mod M).
    { unfold mul_row. destruct (N.eqb_spec (byte_at l i) 0) as [Z|Z].
      - split; [done|]. rewrite Z, N.mul_0_l, N.mul_0_r, N.add_0_r, N.mod_small; [done|]. by apply word_bound.
      - destruct (mul_steps l r i (seq 0 32) (repeat 0 32) WL WR I in_seq32 zero_word) as [H1 H2].
        split; [by apply add256_word|]. rewrite add256_ok, H2 by done.
        rewrite N.add_mod_idemp_r by done. f_equal. f_equal. rewrite number_zeros.
        rewrite (number_sum r). destruct WR as [-> _]. change (32 - 1)%nat with 31%nat. lia. }
    destruct ST as [S1 S2]. destruct (IH (mul_row l r ret i)) as [H1 H2]; [intros k K; apply J; by right|done|].
    split; [done|]. rewrite H2, S2. rewrite N.add_mod_idemp_l by done. f_equal. cbn [sum fold_right].
    unfold sum. lia.
Qed.

Lemma mul256_word l r : word l -> word r -> word (mul256 l r).
Proof. intros WL WR. apply (mul_rows l r _ _ WL WR in_seq32 zero_word). Qed.

Lemma mul256_ok l r : word l -> word r -> number (mul256 l r) = (number l * number r) mod M.
Proof.
  intros WL WR. unfold mul256.
  rewrite (proj2 (mul_rows l r _ _ WL WR in_seq32 zero_word)), number_zeros, N.add_0_l. f_equal.
  rewrite (number_sum l). destruct WL as [-> _]. change (32 - 1)%nat with 31%nat. lia.
Qed.

Lemma to_uint64_ok b : word b -> to_uint64 b = number b mod 2 ^ 64.
Proof.
  intros [L F]. unfold to_uint64. rewrite <- number_be.
  apply (N.mod_unique _ _ (number (firstn 24 b))).
  - assert (B : Forall is_byte (skipn 24 b)) by by apply Forall_drop.
    apply number_bound in B. unfold len in B. rewrite skipn_length, L in B. exact B.
  - rewrite <- (firstn_skipn 24 b) at 1. rewrite number_app. unfold len. rewrite skipn_length, L.
    change (256 ^ N.of_nat (32 - 24)) with (2 ^ 64). lia.
Qed.

Lemma number_inj a b : length a = length b -> Forall is_byte a -> Forall is_byte b ->
  number a = number b -> a = b.
Proof.
  intros L FA FB E. rewrite !number_be in E. unfold be_value in E.
  rewrite <- (rev_involutive a), <- (rev_involutive b). f_equal.
  rewrite <- (le_bytes_value (rev a)), <- (le_bytes_value (rev b)) by by apply Forall_rev.
  rewrite !rev_length, L. by rewrite E.
Qed.

Lemma u64_there_and_back n : n < 2 ^ 64 -> word (u256 n) /\ number (u256 n) = n /\ to_uint64 (u256 n) = n.
Proof.
  intros H. assert (B : n < M) by (eapply N.lt_trans; [exact H|]; reflexivity).
  split; [apply u256_word|]. split; [by apply u256_ok|].
  rewrite to_uint64_ok by apply u256_word. rewrite u256_ok by done. by apply N.mod_small.
Qed.

Lemma word_eq a b : word a -> word b -> (a = b <-> number a = number b).
Proof.
  intros [L F] [L' F']. split; [by intros ->|]. apply number_inj; [lia|done|done].
Qed.
