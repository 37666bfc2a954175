(** Proofs for property C98: a collision of the hash is one of the compression function. *)
From Coq Require Import NArith List Bool Lia.
From stdpp Require Import base option list.
From Verif Require Import Base CodecModel CodecProofs EvmLogProofs RandModel RandSpec RandProofs RandExamples
  ShaModel ShaSpec ShaProofs.
Import ListNotations.
Open Scope N_scope.

Lemma is_byte_be n v : Forall is_byte (be_bytes n v).
Proof. apply be_bytes_is_byte. Qed.

Lemma be_bytes_of_value l : Forall is_byte l -> be_bytes (length l) (be_value l) = l.
Proof.
  intros H. unfold be_bytes, be_value. pose proof (le_bytes_value (rev l)) as E.
  rewrite rev_length in E. rewrite E by (by apply Forall_rev). apply rev_involutive.
Qed.

Lemma pieces n : forall b, length b = (4 * n)%nat -> Forall is_byte b ->
  concat (map (fun i => be_bytes 4 (be_value (firstn 4 (skipn (4 * i) b)))) (seq 0 n)) = b.
Proof.
  induction n as [|n IH]; intros b L B.
  - destruct b; [done|discriminate].
  - cbn [seq map concat]. rewrite <- seq_shift, map_map.
    etransitivity; [|exact (take_drop 4 b)]. f_equal.
    + change (4 * 0)%nat with 0%nat. cbn [drop].
      assert (L4 : length (take 4 b) = 4%nat) by (rewrite firstn_length; lia).
      rewrite <- L4 at 1. apply be_bytes_of_value. by apply Forall_take.
    + etransitivity; [|apply (IH (drop 4 b)); [rewrite skipn_length; lia|by apply Forall_drop]].
      f_equal. apply map_ext. intros i. rewrite drop_drop. do 4 f_equal. lia.
Qed.

Lemma block_words_inj x y : length x = 64%nat -> length y = 64%nat -> Forall is_byte x -> Forall is_byte y ->
  block_words x = block_words y -> x = y.
Proof.
  intros Lx Ly Bx By E. rewrite <- (pieces 16 x Lx Bx), <- (pieces 16 y Ly By).
  rewrite <- !(map_map (fun i => be_value _) (be_bytes 4)). f_equal. by f_equal.
Qed.

Definition is_words (n : nat) (l : list N) : Prop := length l = n /\ Forall (fun w => w < 2 ^ 32) l.

Lemma block_words_words x : length x = 64%nat -> Forall is_byte x -> is_words 16 (block_words x).
Proof.
  intros L B. split; [unfold block_words; by rewrite map_length, seq_length|].
  apply Forall_forall. intros w H. apply elem_of_list_In, in_map_iff in H as (i & <- & H). apply in_seq in H.
  assert (L4 : length (firstn 4 (skipn (4 * i) x)) = 4%nat) by (rewrite firstn_length, skipn_length; lia).
  assert (B4 : Forall is_byte (rev (firstn 4 (skipn (4 * i) x)))) by (by apply Forall_rev, Forall_take, Forall_drop).
  unfold be_value. pose proof (le_value_bound _ B4) as V. unfold len in V. by rewrite rev_length, L4 in V.
Qed.

Lemma sum_lt l : sum l < 2 ^ 32.
Proof. apply N.mod_lt. discriminate. Qed.
Lemma compress_words s m : is_words 8 (compress s m).
Proof. split; [done|]. unfold compress. cbv zeta. repeat (constructor; [apply sum_lt|]). constructor. Qed.

Lemma fold_words l s : is_words 8 s -> is_words 8 (fold_left compress l s).
Proof. revert s. induction l; intros s H; cbn; [done|]. apply IHl, compress_words. Qed.

Lemma H0_words : is_words 8 H0.
Proof. rewrite <- initial_H0. split; [done|]. repeat constructor. Qed.

(** ** The blocks *)

Lemma blocks_snoc n : forall p, blocks (S n) p = blocks n p ++ [block_words (firstn 64 (skipn (64 * n) p))].
Proof.
  induction n as [|n IH]; intros p; [done|].
  change (blocks (S (S n)) p) with (block_words (firstn 64 p) :: blocks (S n) (skipn 64 p)).
  rewrite IH, drop_drop. replace (64 + 64 * n)%nat with (64 * S n)%nat by lia. done.
Qed.
Lemma blocks_length n : forall p, length (blocks n p) = n.
Proof. induction n; intros p; cbn; [done|by rewrite IHn]. Qed.

Lemma blocks_words n : forall p, (64 * n <= length p)%nat -> Forall is_byte p -> Forall (is_words 16) (blocks n p).
Proof.
  induction n as [|n IH]; intros p L B; [constructor|]. cbn [blocks]. constructor.
  - apply block_words_words; [rewrite firstn_length; lia|by apply Forall_take].
  - apply IH; [rewrite skipn_length; lia|by apply Forall_drop].
Qed.

Lemma blocks_inj n : forall p q, length p = (64 * n)%nat -> length q = (64 * n)%nat ->
  Forall is_byte p -> Forall is_byte q -> blocks n p = blocks n q -> p = q.
Proof.
  induction n as [|n IH]; intros p q Lp Lq Bp Bq E.
  - destruct p, q; try discriminate. done.
  - cbn [blocks] in E. apply (f_equal (fun l => (hd [] l, tl l))) in E. cbn [hd tl] in E.
    apply pair_equal_spec in E as [E1 E2].
    rewrite <- (take_drop 64 p), <- (take_drop 64 q). f_equal.
    + apply block_words_inj; [rewrite firstn_length; lia|rewrite firstn_length; lia|by apply Forall_take|by apply Forall_take|done].
    + apply IH; [rewrite skipn_length; lia|rewrite skipn_length; lia|by apply Forall_drop|by apply Forall_drop|done].
Qed.

Lemma same_length_collision n p q : (64 * n <= length p)%nat -> (64 * n <= length q)%nat ->
  fold_left compress (blocks n p) H0 = fold_left compress (blocks n q) H0 ->
  blocks n p = blocks n q \/ collision p q.
Proof.
  induction n as [|n IH]; intros Lp Lq E; [by left|].
  rewrite !blocks_snoc in E |- *. rewrite !fold_left_app in E. cbn [fold_left] in E.
  set (x := block_words (firstn 64 (skipn (64 * n) p))) in *.
  set (y := block_words (firstn 64 (skipn (64 * n) q))) in *.
  destruct (decide ((fold_left compress (blocks n p) H0, x) = (fold_left compress (blocks n q) H0, y))) as [Eq|Ne].
  - apply pair_equal_spec in Eq as [E1 ->]. destruct IH as [->|C]; [lia|lia|done|by left|by right].
  - right. eexists _, _, _, _. split; [exists n; repeat split; lia|]. split; [exists n; repeat split; lia|].
    split; [exact Ne|exact E].
Qed.

Lemma digest_inj s t : is_words 8 s -> is_words 8 t ->
  concat (map (be_bytes 4) s) = concat (map (be_bytes 4) t) -> s = t.
Proof.
  intros [Ls Ws] [Lt Wt]. rewrite <- Lt in Ls. clear Lt. revert t Ls Wt.
  induction Ws as [|x s Hx Ws IH]; intros [|y t] L Wt E; try discriminate; [done|].
  cbn [map concat] in E. apply app_inj_1 in E as [E1 E2]; [|by rewrite !be_bytes_length].
  inversion Wt as [|? ? Hy Wt']. subst. f_equal.
  - eapply be_bytes_inj; [| |exact E1]; done.
  - apply IH; [cbn in L; lia|done|done].
Qed.

Lemma padded_facts m p : padded m p -> Forall is_byte m ->
  exists n, length p = (64 * S n)%nat /\ Forall is_byte p /\
    skipn (64 * n + 56) p = be_bytes 8 (8 * N.of_nat (length m)).
Proof.
  intros (k & Hk & Hm & ->) B. set (z := be_bytes 8 _).
  assert (Lz : length z = 8%nat) by apply be_bytes_length.
  pose proof (Nat.div_mod (length m + 1 + k) 64 ltac:(lia)) as D. rewrite Hm in D.
  exists ((length m + 1 + k) / 64)%nat. split; [|split].
  - rewrite !app_length, repeat_length, Lz. cbn [length]. lia.
  - apply Forall_app_2; [done|]. apply Forall_app_2; [by repeat constructor|].
    apply Forall_app_2; [|apply be_bytes_is_byte]. apply Forall_forall. intros x H. apply elem_of_list_In, repeat_spec in H as ->. done.
  - rewrite !app_assoc. apply drop_app_alt. rewrite !app_length, repeat_length. cbn [length]. lia.
Qed.

Lemma hash_collision a b p q : Forall is_byte a -> Forall is_byte b ->
  N.of_nat (length a) < 2 ^ 61 -> N.of_nat (length b) < 2 ^ 61 ->
  padded a p -> padded b q ->
  a <> b -> hash_data a = hash_data b -> collision p q.
Proof.
  intros Ba Bb La Lb Pp Pq Ne E.
  rewrite (hash_standard a p Pp), (hash_standard b q Pq) in E. unfold SHA256 in E.
  apply digest_inj in E; [|apply fold_words, H0_words|apply fold_words, H0_words].
  destruct (padded_facts a p Pp Ba) as (n & Lp & Bp & Ep). destruct (padded_facts b q Pq Bb) as (j & Lq & Bq & Eq).
  rewrite Lp, Lq in E. rewrite !(Nat.mul_comm 64), !Nat.div_mul in E by lia.
  destruct (decide (length a = length b)) as [Same|Diff].
  - assert (Lpq : length p = length q).
    { destruct Pp as (k & Hk & Hm & ->), Pq as (i & Hi & Hm' & ->).
      rewrite !app_length, !repeat_length, !be_bytes_length. rewrite Same in Hm.
      pose proof (Nat.div_mod (length b + 1 + k) 64 ltac:(lia)). pose proof (Nat.div_mod (length b + 1 + i) 64 ltac:(lia)). lia. }
    assert (n = j) as -> by lia.
    destruct (same_length_collision (S j) p q) as [Eb|C]; [lia|lia|exact E| |done].
    exfalso. apply Ne. apply blocks_inj in Eb; [|done|done|done|done].
      destruct Pp as (k & _ & _ & Hp), Pq as (i & _ & _ & Hq). rewrite Hp, Hq in Eb. by apply app_inj_1 in Eb as [? _].
  - rewrite !blocks_snoc, !fold_left_app in E. cbn [fold_left] in E.
    set (x := firstn 64 (skipn (64 * n) p)) in *. set (y := firstn 64 (skipn (64 * j) q)) in *.
    assert (Lx : length x = 64%nat) by (unfold x; rewrite firstn_length, skipn_length; lia).
    assert (Ly : length y = 64%nat) by (unfold y; rewrite firstn_length, skipn_length; lia).
    assert (Bx : Forall is_byte x) by (by apply Forall_take, Forall_drop).
    assert (By : Forall is_byte y) by (by apply Forall_take, Forall_drop).
    eexists _, _, _, _. split; [exists n; split; [lia|split; reflexivity]|].
    split; [exists j; split; [lia|split; reflexivity]|]. split; [|exact E].
    intros H. apply pair_equal_spec in H as [_ H]. apply block_words_inj in H; [|done|done|done|done].
    assert (Tx : skipn 56 x = be_bytes 8 (8 * N.of_nat (length a))).
    { unfold x. rewrite firstn_all2 by (rewrite skipn_length; lia). by rewrite drop_drop. }
    assert (Ty : skipn 56 y = be_bytes 8 (8 * N.of_nat (length b))).
    { unfold y. rewrite firstn_all2 by (rewrite skipn_length; lia). by rewrite drop_drop. }
    change (x = y) in H. rewrite H in Tx. rewrite Ty in Tx. apply be_bytes_inj in Tx; [lia| |].
    + change (256 ^ N.of_nat 8) with (8 * 2 ^ 61). lia.
    + change (256 ^ N.of_nat 8) with (8 * 2 ^ 61). lia.
Qed.

Lemma reuse : exists a b p, padded b p /\
  snd (Finalize (Write (fst (Finalize (Write fresh a))) b)) <> SHA256 p.
Proof.
  exists [1], []. destruct (padded_exists []) as [p H]. exists p. split; [done|].
  rewrite <- (hash_standard [] p H). intros E.
  assert (F : (be_value (snd (Finalize (Write (fst (Finalize (Write fresh [1]))) []))) =? be_value (hash_data [])) = true)
    by (rewrite E; apply N.eqb_refl).
  revert F. vm_compute. discriminate.
Qed.
