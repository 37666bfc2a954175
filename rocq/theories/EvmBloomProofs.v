(** Proofs for C85: Bloom filters of receipts and blocks. *)
From Coq Require Import NArith List Bool Lia ZifyBool ZifyNat ZifyN.
From stdpp Require Import gmap.
From Verif Require Import Base CodecModel MsgModel EvmLogModel EvmLogSpec.
Import ListNotations.
Open Scope N_scope.

Definition filter_ok (b : bytes) : Prop := length b = 256%nat /\ Forall is_byte b.

Lemma pair_value h i : (S i < length h)%nat -> le_value (firstn 2 (skipn i h)) = nth i h 0 + 256 * nth (S i) h 0.
Proof.
  revert h. induction i as [|i IH]; intros h L.
  - destruct h as [|a [|b h]]; cbn in L; try lia. cbn [skipn firstn le_value nth]. now rewrite N.mul_0_r, N.add_0_r.
  - destruct h as [|a h]; cbn in L; [lia|]. cbn [skipn]. rewrite IH by lia. reflexivity.
Qed.

Lemma low_bits n : N.land n bloom_bits = n mod 2048.
Proof. change bloom_bits with (N.ones 11). rewrite N.land_ones. reflexivity. Qed.

Lemma set_nth (b : bytes) i v j : (i < length b)%nat ->
  nth j (set_byte b i v) 0 = if Nat.eqb i j then v else nth j b 0.
Proof.
  unfold set_byte. revert i j. induction b as [|x b IH]; intros i j L; cbn in L; [lia|].
  destruct i as [|i], j as [|j]; cbn; try reflexivity.
  apply IH. lia.
Qed.

Lemma set_length b i v : length (set_byte b i v) = length b.
Proof. unfold set_byte. apply insert_length. Qed.

Lemma set_bytes (b : bytes) i v : Forall is_byte b -> is_byte v -> Forall is_byte (set_byte b i v).
Proof. intros F V. unfold set_byte. now apply Forall_insert. Qed.

Lemma lor_byte a b : is_byte a -> is_byte b -> is_byte (N.lor a b).
Proof.
  unfold is_byte. intros A B.
  destruct (N.eq_dec (N.lor a b) 0) as [->|Ne]; [reflexivity|].
  change 256 with (2 ^ 8). apply N.log2_lt_pow2; [lia|]. rewrite N.log2_lor.
  assert (X : forall c, c < 256 -> N.log2 c < 8).
  { intros c C. destruct (N.eq_dec c 0) as [->|Nc]; [reflexivity|]. apply N.log2_lt_pow2; [lia|exact C]. }
  apply N.max_lub_lt; now apply X.
Qed.

Section K.
Context (keccak : bytes -> bytes) (KC : is_keccak keccak).

Lemma round_ok h b i : length h = 32%nat -> (i < 31)%nat -> filter_ok b ->
  filter_ok (bloom_round h b i) /\
  forall n, n < 2048 -> bloom_bit (bloom_round h b i) n = bloom_bit b n || (n =? pair_le h i).
Proof.
  intros HL HI (BL & BB). unfold bloom_round. rewrite pair_value by lia. rewrite low_bits.
  fold (pair_le h i). set (p := pair_le h i).
  assert (P : p < 2048) by (apply N.mod_lt; discriminate).
  assert (Q : (bloom_bits - p) / 8 = 255 - p / 8) by (unfold bloom_bits; lia).
  assert (M : 7 - (bloom_bits - p) mod 8 = p mod 8) by (unfold bloom_bits; lia).
  rewrite Q, M. set (j := N.to_nat (255 - p / 8)).
  assert (J : (j < 256)%nat) by lia.
  assert (V : N.shiftl 1 (p mod 8) mod 256 = 2 ^ (p mod 8)).
  { rewrite N.shiftl_1_l. apply N.mod_small. change 256 with (2 ^ 8).
    apply N.pow_lt_mono_r; [reflexivity|]. apply N.mod_lt. discriminate. }
  rewrite V. split; [split|].
  - now rewrite set_length.
  - apply set_bytes; [exact BB|]. apply lor_byte.
    + destruct (Nat.lt_ge_cases j (length b)) as [Lj|Lj].
      * rewrite Forall_forall in BB. apply BB. apply elem_of_list_In, nth_In, Lj.
      * rewrite nth_overflow by exact Lj. reflexivity.
    + unfold is_byte. change 256 with (2 ^ 8). apply N.pow_lt_mono_r; [reflexivity|]. apply N.mod_lt. discriminate.
  - intros n Hn. unfold bloom_bit. rewrite set_nth by lia.
    destruct (Nat.eqb_spec j (255 - N.to_nat (n / 8))) as [E|E].
    + rewrite N.lor_spec, N.pow2_bits_eqb.
      replace (nth j b 0) with (nth (255 - N.to_nat (n / 8)) b 0) by now rewrite E.
      f_equal. assert (D : p / 8 = n / 8) by lia.
      destruct (N.eqb_spec n p) as [->|Ne]; [apply N.eqb_refl|].
      apply N.eqb_neq. intros C. apply Ne.
      rewrite (N.div_mod n 8), (N.div_mod p 8) by discriminate. now rewrite D, C.
    + replace (n =? p) with false; [now rewrite orb_false_r|].
      symmetry. apply N.eqb_neq. intros ->. apply E. lia.
Qed.

Definition hits (entry : bytes) (n : N) : bool :=
  existsb (fun i => n =? pair_le (keccak entry) i) [0; 2; 4]%nat.

Lemma add_ok b entry : filter_ok b ->
  filter_ok (add_to_bloom keccak b entry) /\
  forall n, n < 2048 -> bloom_bit (add_to_bloom keccak b entry) n = bloom_bit b n || hits entry n.
Proof using KC.
  intros F. destruct (KC entry) as [L _]. unfold add_to_bloom. cbn [fold_left].
  destruct (round_ok _ b 0 L ltac:(lia) F) as [F0 B0].
  destruct (round_ok _ _ 2 L ltac:(lia) F0) as [F1 B1].
  destruct (round_ok _ _ 4 L ltac:(lia) F1) as [F2 B2].
  split; [exact F2|]. intros n Hn. rewrite B2, B1, B0 by exact Hn.
  unfold hits. cbn [existsb]. now rewrite orb_false_r, !orb_assoc.
Qed.

Lemma adds_ok es b : filter_ok b ->
  filter_ok (fold_left (add_to_bloom keccak) es b) /\
  forall n, n < 2048 ->
    bloom_bit (fold_left (add_to_bloom keccak) es b) n = bloom_bit b n || existsb (fun e => hits e n) es.
Proof using KC.
  induction es as [|e es IH] in b |- *; intros F; cbn [fold_left existsb].
  - split; [exact F|]. intros n _. now rewrite orb_false_r.
  - destruct (add_ok b e F) as [F1 B1]. destruct (IH _ F1) as [F2 B2]. split; [exact F2|].
    intros n Hn. now rewrite B2, B1, orb_assoc by exact Hn.
Qed.

Lemma empty_ok : filter_ok (repeat 0 256).
Proof. split; [reflexivity|]. apply Forall_forall. intros x H. apply elem_of_list_In, repeat_spec in H. now subst. Qed.

Lemma empty_bit n : bloom_bit (repeat 0 256) n = false.
Proof. unfold bloom_bit. rewrite nth_repeat. apply N.bits_0. Qed.

Lemma entries_spec ls entry :
  In entry (flat_map event_entries ls) <-> exists e, e ∈ ls /\ entry_of e entry.
Proof.
  rewrite in_flat_map. split; intros (e & E & H); exists e; rewrite elem_of_list_In in *; (split; [exact E|]).
  - destruct H as [<-|H]; [now left|]. right. apply in_map_iff in H as (t & <- & T).
    exists t. now rewrite elem_of_list_In.
  - destruct H as [->|(t & T & ->)]; [now left|]. right. apply in_map. now apply elem_of_list_In.
Qed.

Lemma existsb_entries ls n : existsb (fun e => hits e n) (flat_map event_entries ls) = true <->
  exists e entry i, e ∈ ls /\ entry_of e entry /\ i ∈ [0; 2; 4]%nat /\ pair_le (keccak entry) i = n.
Proof.
  rewrite existsb_exists. split.
  - intros (entry & H & T). apply entries_spec in H as (e & E & Eo).
    unfold hits in T. apply existsb_exists in T as (i & I & T). apply N.eqb_eq in T.
    exists e, entry, i. apply elem_of_list_In in I. now repeat split.
  - intros (e & entry & i & E & Eo & I & T). exists entry. split; [apply entries_spec; eauto|].
    unfold hits. apply existsb_exists. exists i. split; [now apply elem_of_list_In|]. now apply N.eqb_eq.
Qed.

Lemma receipt_exact ls n : n < 2048 ->
  bloom_bit (receipt_bloom keccak ls) n = true <->
  exists e entry i, e ∈ ls /\ entry_of e entry /\ i ∈ [0; 2; 4]%nat /\ pair_le (keccak entry) i = n.
Proof using KC.
  intros Hn. unfold receipt_bloom. rewrite (proj2 (adds_ok _ _ empty_ok)) by exact Hn.
  rewrite empty_bit. apply existsb_entries.
Qed.

Lemma receipt_size ls : length (receipt_bloom keccak ls) = 256%nat /\ Forall is_byte (receipt_bloom keccak ls).
Proof using KC. exact (proj1 (adds_ok _ _ empty_ok)). Qed.

Lemma pair_le_lt h i : pair_le h i < 2048. Proof. apply N.mod_lt. discriminate. Qed.

Lemma receipt_says ls e entry : e ∈ ls -> entry_of e entry ->
  says pair_le keccak (receipt_bloom keccak ls) entry.
Proof using KC.
  intros E Eo i I. apply receipt_exact; [apply pair_le_lt|]. exists e, entry, i. now repeat split.
Qed.

Lemma block_exact txs n : n < 2048 ->
  bloom_bit (block_bloom keccak txs) n = true <->
  exists ls, ls ∈ txs /\ bloom_bit (receipt_bloom keccak ls) n = true.
Proof using KC.
  intros Hn. unfold block_bloom. rewrite (proj2 (adds_ok _ _ empty_ok)) by exact Hn.
  rewrite empty_bit. cbn [orb]. rewrite existsb_entries. split.
  - intros (e & entry & i & E & R). apply elem_of_list_In, in_concat in E as (ls & L & E).
    exists ls. split; [now apply elem_of_list_In|]. apply receipt_exact; [exact Hn|].
    exists e, entry, i. split; [now apply elem_of_list_In|exact R].
  - intros (ls & L & B). apply receipt_exact in B as (e & entry & i & E & R); [|exact Hn].
    exists e, entry, i. split; [|exact R]. apply elem_of_list_In, in_concat. exists ls.
    now rewrite <- !elem_of_list_In.
Qed.
End K.
