(** Proofs for property C99. *)
From Coq Require Import NArith List Bool Lia.
From stdpp Require Import base option list.
From Verif Require Import Base CodecModel CodecProofs EvmLogProofs EvmMathProofs TicketModel SipModel SipSpec.
Import ListNotations.
Open Scope N_scope.

(** ** Words of 64 bits *)

Lemma lor_add t b k : t < 2 ^ k -> N.lor t (N.shiftl b k) = t + b * 2 ^ k.
Proof.
  intros T. assert (Z : N.land t (N.shiftl b k) = 0).
  { apply N.bits_inj. intros i. rewrite N.land_spec, N.bits_0. destruct (N.lt_ge_cases i k) as [L|L].
    - by rewrite N.shiftl_spec_low, andb_false_r.
    - replace (N.testbit t i) with false; [done|]. symmetry.
      destruct (decide (t = 0)) as [->|P]; [apply N.bits_0|]. apply N.bits_above_log2.
      apply N.log2_lt_pow2; [lia|]. eapply N.lt_le_trans; [exact T|]. apply N.pow_le_mono_r; lia. }
  rewrite <- N.lxor_lor, <- N.add_nocarry_lxor by done. by rewrite N.shiftl_mul_pow2.
Qed.

Lemma wrap_lt x : wrap64 x < 2 ^ 64.
Proof. by apply N.mod_lt. Qed.

Lemma small_bits x k : x < 2 ^ k <-> (forall i, k <= i -> N.testbit x i = false).
Proof.
  split.
  - intros L i I. destruct (decide (x = 0)) as [->|P]; [apply N.bits_0|]. apply N.bits_above_log2.
    apply N.log2_lt_pow2; [lia|]. eapply N.lt_le_trans; [exact L|]. apply N.pow_le_mono_r; lia.
  - intros B. destruct (decide (x = 0)) as [->|P]; [apply N.neq_0_lt_0, N.pow_nonzero; done|].
    apply N.log2_lt_pow2; [lia|]. destruct (N.lt_ge_cases (N.log2 x) k) as [L|L]; [done|].
    pose proof (B _ L) as H. rewrite N.bit_log2 in H by done. done.
Qed.
Lemma lxor_small x y k : x < 2 ^ k -> y < 2 ^ k -> N.lxor x y < 2 ^ k.
Proof. rewrite !small_bits. intros X Y i I. by rewrite N.lxor_spec, X, Y. Qed.
Lemma lor_small x y k : x < 2 ^ k -> y < 2 ^ k -> N.lor x y < 2 ^ k.
Proof. rewrite !small_bits. intros X Y i I. by rewrite N.lor_spec, X, Y. Qed.

Lemma rotl_turn x b : 0 < b < 64 -> x < 2 ^ 64 -> rotl x b = turn b x.
Proof.
  intros B X. unfold rotl, turn, wrap64. change two64 with (2 ^ 64).
  rewrite N.shiftl_mul_pow2, N.shiftr_div_pow2, N.lor_comm.
  assert (P : 2 ^ 64 = 2 ^ (64 - b) * 2 ^ b) by (rewrite <- N.pow_add_r; f_equal; lia).
  assert (Pb : 2 ^ b <> 0) by (by apply N.pow_nonzero). assert (Pc : 2 ^ (64 - b) <> 0) by (by apply N.pow_nonzero).
  rewrite P at 1 2. rewrite N.mul_mod_distr_r by done.
  rewrite <- N.shiftl_mul_pow2, lor_add.
  - rewrite N.shiftl_mul_pow2. lia.
  - apply N.div_lt_upper_bound; [done|]. by rewrite <- P.
Qed.
Lemma rotl_lt x b : x < 2 ^ 64 -> rotl x b < 2 ^ 64.
Proof.
  intros X. apply lor_small; [apply wrap_lt|]. rewrite N.shiftr_div_pow2.
  eapply N.le_lt_trans; [|exact X]. apply N.div_le_upper_bound; [by apply N.pow_nonzero|].
  rewrite <- (N.mul_1_l x) at 1. apply N.mul_le_mono_r. apply N.neq_0_lt_0, N.pow_nonzero in X || idtac.
  pose proof (N.pow_nonzero 2 (64 - b)). lia.
Qed.

(** ** Rounds *)

Definition pack (v : N * N * N * N) : words4 := let '(a, b, c, d) := v in W4 a b c d.
Definition small (v : N * N * N * N) : Prop :=
  let '(a, b, c, d) := v in a < 2 ^ 64 /\ b < 2 ^ 64 /\ c < 2 ^ 64 /\ d < 2 ^ 64.

Lemma sipround_small v : small v -> small (sipround v).
Proof.
  destruct v as [[[a b] c] d]. intros (A & B & C & D). unfold sipround. cbv zeta.
  repeat split; repeat first [apply wrap_lt|done|apply lxor_small|apply rotl_lt].
Qed.
Lemma sipround_spec v : small v -> pack (sipround v) = SipRound (pack v).
Proof.
  destruct v as [[[a b] c] d]. intros (A & B & C & D).
  unfold sipround, SipRound, crossed, layer, pack. cbn [w0 w1 w2 w3]. cbv zeta.
  unfold plus. change (fun x => x mod 2 ^ 64) with wrap64.
  assert (R : forall x b, 0 < b < 64 -> x < 2 ^ 64 -> turn b x = rotl x b) by (intros; by rewrite rotl_turn).
  change (2 ^ 64) with two64 in *. fold (wrap64 (a + b)) (wrap64 (c + d)).
  rewrite (R b 13), (R d 16), (R (wrap64 (a + b)) 32) by (lia || done || apply wrap_lt).
  set (x := N.lxor (rotl b 13) _). set (y := N.lxor (rotl d 16) _).
  assert (X : x < two64) by (apply (lxor_small _ _ 64); [by apply rotl_lt|apply wrap_lt]).
  assert (Y : y < two64) by (apply (lxor_small _ _ 64); [by apply rotl_lt|apply wrap_lt]).
  rewrite (R x 17), (R y 21), (R _ 32) by (lia || done || apply wrap_lt).
  reflexivity.
Qed.

Lemma mix_small v t : small v -> t < 2 ^ 64 -> small (mix v t).
Proof.
  destruct v as [[[a b] c] d]. intros (A & B & C & D) T. unfold mix.
  assert (S1 : small (a, b, c, N.lxor d t)) by (repeat split; try done; by apply lxor_small).
  apply sipround_small, sipround_small in S1. destruct (sipround (sipround _)) as [[[a' b'] c'] d'].
  destruct S1 as (A' & B' & C' & D'). repeat split; try done. by apply lxor_small.
Qed.
Lemma mix_spec v t : small v -> t < 2 ^ 64 -> pack (mix v t) = absorb (pack v) t.
Proof.
  destruct v as [[[a b] c] d]. intros (A & B & C & D) T. unfold mix, absorb. cbn [pack w0 w1 w2 w3 SipRounds].
  assert (S1 : small (a, b, c, N.lxor d t)) by (repeat split; try done; by apply lxor_small).
  change (W4 a b c (N.lxor d t)) with (pack (a, b, c, N.lxor d t)).
  rewrite <- sipround_spec by done. rewrite <- sipround_spec by (by apply sipround_small).
  by destruct (sipround (sipround _)) as [[[a' b'] c'] d'].
Qed.

(** ** What is written *)

(** [h] is the hasher with key k0, k1 after the bytes [m]. *)
Definition written (k0 k1 : N) (m : bytes) (h : hasher) : Prop :=
  small (sv h) /\ pack (sv h) = fold_left absorb (words_of (length m / 8) m) (start k0 k1) /\
  stmp h = le_value (skipn (8 * (length m / 8)) m) /\ scount h = N.of_nat (length m) mod 256.

Lemma words_prefix n p q : (8 * n <= length p)%nat -> words_of n (p ++ q) = words_of n p.
Proof.
  intros L. unfold words_of. apply map_ext_in. intros i H. apply in_seq in H.
  rewrite skipn_app, firstn_app. rewrite skipn_length.
  replace (8 - (length p - 8 * i))%nat with 0%nat by lia. by rewrite app_nil_r.
Qed.
Lemma words_snoc n p : words_of (S n) p = words_of n p ++ [le_value (firstn 8 (skipn (8 * n) p))].
Proof. unfold words_of. by rewrite seq_S, map_app. Qed.

Lemma count8 n : N.of_nat n mod 256 mod 8 = N.of_nat (n mod 8).
Proof.
  rewrite Nat2N.inj_mod. change (N.of_nat 8) with 8. change 256 with (8 * 32).
  rewrite N.mod_mul_r by done. rewrite N.mul_comm, N.mod_add, N.mod_mod by done. done.
Qed.
Lemma land7 x : N.land x 7 = x mod 8.
Proof. change 7 with (N.ones 3). by rewrite N.land_ones. Qed.

Lemma rest_length (m : bytes) : length (skipn (8 * (length m / 8)) m) = (length m mod 8)%nat.
Proof. rewrite skipn_length. pose proof (Nat.div_mod (length m) 8). lia. Qed.

Lemma byte_in t b (r : bytes) : Forall is_byte r -> is_byte b -> (length r < 8)%nat -> t = le_value r ->
  N.lor t (wrap64 (N.shiftl b (8 * N.of_nat (length r)))) = le_value (r ++ [b]).
Proof.
  intros R B L ->. rewrite le_value_snoc.
  pose proof (le_value_bound r R) as V. unfold len in *.
  assert (P : 256 ^ N.of_nat (length r) = 2 ^ (8 * N.of_nat (length r))).
  { change 256 with (2 ^ 8). by rewrite <- N.pow_mul_r. }
  rewrite P in *. rewrite <- lor_add by done. f_equal. unfold wrap64. apply N.mod_small.
  rewrite N.shiftl_mul_pow2. unfold is_byte in B.
  apply N.lt_le_trans with (2 ^ 8 * 2 ^ (8 * N.of_nat (length r))).
  - apply N.mul_lt_mono_pos_r; [|exact B]. apply N.neq_0_lt_0, N.pow_nonzero. done.
  - rewrite <- N.pow_add_r. change two64 with (2 ^ 64). apply N.pow_le_mono_r; lia.
Qed.

Lemma write_one k0 k1 m h b : Forall is_byte m -> is_byte b -> written k0 k1 m h ->
  written k0 k1 (m ++ [b]) (write_byte h b).
Proof.
  intros M B (SM & V & T & C). unfold write_byte.
  pose proof (rest_length m) as LR. set (r := skipn (8 * (length m / 8)) m) in *.
  pose proof (Nat.div_mod (length m) 8 ltac:(lia)) as D. pose proof (Nat.mod_upper_bound (length m) 8 ltac:(lia)) as U.
  assert (R : Forall is_byte r) by (by apply Forall_drop).
  cbv zeta. rewrite C. rewrite count8, <- LR, (byte_in _ _ r) by (done || lia).
  assert (C' : (N.of_nat (length m) mod 256 + 1) mod 256 = N.of_nat (length (m ++ [b])) mod 256).
  { rewrite app_length. cbn [length]. rewrite N.add_mod_idemp_l by done. f_equal. lia. }
  rewrite C'. rewrite land7, count8.
  assert (Lm : length (m ++ [b]) = S (length m)) by (rewrite app_length; cbn; lia).
  assert (SK : skipn (8 * (length m / 8)) (m ++ [b]) = r ++ [b]).
  { rewrite skipn_app. replace (8 * (length m / 8) - length m)%nat with 0%nat by lia. done. }
  assert (W64 : le_value (r ++ [b]) < 2 ^ 64).
  { eapply N.lt_le_trans; [apply le_value_bound; apply Forall_app_2; [done|by constructor]|].
    unfold len. rewrite app_length, LR. cbn [length]. change 256 with (2 ^ 8). rewrite <- N.pow_mul_r. apply N.pow_le_mono_r; lia. }
  destruct (Nat.eq_dec (length m mod 8)%nat 7%nat) as [E|E].
  - assert (Q : (length (m ++ [b]) / 8 = S (length m / 8))%nat) by (rewrite Lm; symmetry; apply (Nat.div_unique _ 8 _ 0); lia).
    assert (Q' : (length (m ++ [b]) mod 8 = 0)%nat) by (pose proof (Nat.div_mod (length (m ++ [b])) 8); lia).
    rewrite Q'. change (N.of_nat 0 =? 0) with true. cbv iota. unfold written. cbn [sv stmp scount].
    split; [by apply mix_small|]. split; [|split].
    + rewrite mix_spec, V, Q, words_snoc, fold_left_app by done. cbn [fold_left].
      rewrite words_prefix by lia. rewrite SK, firstn_all2 by (rewrite app_length, LR; cbn; lia). done.
    + rewrite Q, skipn_all2 by lia. done.
    + done.
  - assert (Q : (length (m ++ [b]) / 8 = length m / 8)%nat) by (rewrite Lm; symmetry; apply (Nat.div_unique _ 8 _ (S (length m mod 8))); lia).
    assert (Q' : (length (m ++ [b]) mod 8 <> 0)%nat) by (pose proof (Nat.div_mod (length (m ++ [b])) 8); lia).
    rewrite (proj2 (N.eqb_neq _ _)) by lia. unfold written. cbn [sv stmp scount].
    split; [done|]. split; [|split].
    + rewrite V, Q, words_prefix by lia. done.
    + by rewrite Q, SK.
    + done.
Qed.

Lemma write_many k0 k1 d : forall m h, Forall is_byte m -> Forall is_byte d -> written k0 k1 m h ->
  written k0 k1 (m ++ d) (WriteBytes h d).
Proof.
  induction d as [|b d IH]; intros m h M D W; [by rewrite app_nil_r|].
  inversion D; subst. cbn [WriteBytes fold_left]. replace (m ++ b :: d) with ((m ++ [b]) ++ d) by (by rewrite <- app_assoc).
  apply IH; [by apply Forall_app_2; [|constructor]|done|by apply write_one].
Qed.

Lemma write_none k0 k1 : k0 < 2 ^ 64 -> k1 < 2 ^ 64 -> written k0 k1 [] (CSipHasher k0 k1).
Proof.
  intros K0 K1. unfold written. cbn [sv stmp scount CSipHasher]. split; [|split; [|done]].
  - repeat split; by apply lxor_small.
  - change (words_of (length (@nil N) / 8) []) with (@nil N). cbn [fold_left]. unfold pack, start.
    by rewrite (N.lxor_comm k0), (N.lxor_comm k1), (N.lxor_comm k0 0x6c7967656e657261), (N.lxor_comm k1 0x7465646279746573).
Qed.

Lemma final k0 k1 m h : Forall is_byte m -> written k0 k1 m h -> SipFinalize h = SipHash24 k0 k1 m.
Proof.
  intros M (SM & V & T & C). unfold SipFinalize, SipHash24.
  pose proof (rest_length m) as LR. set (r := skipn (8 * (length m / 8)) m) in *.
  pose proof (Nat.div_mod (length m) 8 ltac:(lia)) as D. pose proof (Nat.mod_upper_bound (length m) 8 ltac:(lia)) as U.
  assert (R : Forall is_byte r) by (by apply Forall_drop).
  set (l := N.of_nat (length m) mod 256) in *.
  assert (Bl : is_byte l) by (by apply N.mod_lt).
  assert (R7 : Forall is_byte (r ++ repeat 0 (7 - length m mod 8))).
  { apply Forall_app_2; [done|]. apply Forall_forall. intros x H. apply elem_of_list_In, repeat_spec in H as ->. done. }
  assert (L7 : length (r ++ repeat 0 (7 - length m mod 8)) = 7%nat) by (rewrite app_length, repeat_length; lia).
  assert (T7 : stmp h = le_value (r ++ repeat 0 (7 - length m mod 8))).
  { rewrite T. clear. generalize (7 - length m mod 8)%nat. intros n. revert n.
    induction r as [|x r IH]; intros n; cbn; [induction n; cbn; lia|]. by rewrite <- IH. }
  assert (E : N.lor (stmp h) (wrap64 (N.shiftl (scount h) 56)) = le_value ((r ++ repeat 0 (7 - length m mod 8)) ++ [l])).
  { rewrite C. rewrite <- (byte_in (stmp h) l _ R7 Bl) by (done || lia). by rewrite L7. }
  rewrite E. set (t := le_value ((r ++ repeat 0 (7 - length m mod 8)) ++ [l])) in *.
  assert (T64 : t < 2 ^ 64).
  { eapply N.lt_le_trans; [apply le_value_bound; apply Forall_app_2; [done|by constructor]|].
    unfold len. rewrite app_length, L7. done. }
  rewrite Nat.add_1_r, words_snoc, fold_left_app. cbn [fold_left]. unfold filled at 1.
  rewrite words_prefix by lia. rewrite <- V.
  replace (le_value _) with t.
  2:{ unfold t, filled. rewrite skipn_app. replace (8 * (length m / 8) - length m)%nat with 0%nat by lia.
      fold r. fold l. rewrite drop_0. rewrite firstn_all2; [by rewrite <- ?app_assoc|].
      rewrite !app_length, repeat_length. cbn [length]. lia. }
  rewrite <- mix_spec by done. pose proof (mix_small _ _ SM T64) as S2.
  destruct (mix (sv h) t) as [[[a b] c] d]. destruct S2 as (A2 & B2 & C2 & D2).
  assert (S3 : small (a, b, N.lxor c 255, d)) by (repeat split; try done; by apply lxor_small).
  unfold finish. cbn [pack w0 w1 w2 w3 SipRounds]. change (W4 a b (N.lxor c 255) d) with (pack (a, b, N.lxor c 255, d)).
  repeat (rewrite <- sipround_spec by (repeat apply sipround_small; exact S3)).
  destruct (sipround _) as [[[a' b'] c'] d']. cbn [pack w0 w1 w2 w3]. by rewrite !N.lxor_assoc.
Qed.

Lemma sip_pieces k0 k1 ps : k0 < 2 ^ 64 -> k1 < 2 ^ 64 -> Forall (Forall is_byte) ps ->
  SipFinalize (fold_left WriteBytes ps (CSipHasher k0 k1)) = SipHash24 k0 k1 (concat ps).
Proof.
  intros K0 K1 P.
  assert (Q : forall m h, Forall is_byte m -> written k0 k1 m h ->
    written k0 k1 (m ++ concat ps) (fold_left WriteBytes ps h)).
  { induction P as [|d ps D P IH]; intros m h M W; cbn; [by rewrite app_nil_r|].
    rewrite app_assoc. apply IH; [by apply Forall_app_2|by apply write_many]. }
  specialize (Q [] _ ltac:(constructor) (write_none k0 k1 K0 K1)). apply final; [|exact Q].
  clear -P. induction P; cbn; [constructor|by apply Forall_app_2].
Qed.

Lemma sip_hash d : Forall is_byte d -> const_sip_hash d = SipHash24 0x1337 0x1337 d.
Proof.
  intros D. unfold const_sip_hash. pose proof (sip_pieces 0x1337 0x1337 [d] ltac:(done) ltac:(done) ltac:(by constructor)) as H.
  cbn [fold_left concat] in H. by rewrite app_nil_r in H.
Qed.

(** A number is written like its eight bytes, if it is written at a multiple of eight bytes. *)
Lemma sip_number k0 k1 m h x : Forall is_byte m -> x < 2 ^ 64 -> written k0 k1 m h ->
  match Write64 h x with
  | Some h' => (length m mod 8 = 0)%nat /\ written k0 k1 (m ++ le_bytes 8 x) h'
  | None => (length m mod 8 <> 0)%nat
  end.
Proof.
  intros M X (S & V & T & C). unfold Write64. rewrite C, count8.
  pose proof (Nat.div_mod (length m) 8 ltac:(lia)) as D.
  destruct (N.eqb_spec (N.of_nat (length m mod 8)) 0) as [E|E]; [|lia].
  split; [lia|]. assert (L : length (m ++ le_bytes 8 x) = (length m + 8)%nat) by (by rewrite app_length, le_bytes_length).
  assert (Q : (length (m ++ le_bytes 8 x) / 8 = Datatypes.S (length m / 8))%nat)
    by (rewrite L; symmetry; apply (Nat.div_unique _ 8 _ 0); lia).
  unfold written. cbn [sv stmp scount]. split; [by apply mix_small|]. split; [|split].
  - rewrite mix_spec, V, Q, words_snoc, fold_left_app by done. cbn [fold_left]. rewrite words_prefix by lia.
    f_equal. rewrite skipn_app, skipn_all2 by lia. replace (8 * (length m / 8) - length m)%nat with 0%nat by lia.
    rewrite drop_0, app_nil_l. rewrite firstn_all2 by (by rewrite le_bytes_length). symmetry. by apply le_value_bytes.
  - rewrite T, Q. rewrite !skipn_all2 by lia. done.
  - rewrite L. rewrite N.add_mod_idemp_l by done. f_equal. lia.
Qed.

(** ** The other hash *)

Lemma null_clash n : N.of_nat n <= 2 ^ 192 -> exists l, length l = n /\ base.NoDup l /\
  forall x, x ∈ l -> length x = 32%nat /\ Forall is_byte x /\ null_hash x = 0.
Proof.
  intros L. exists (map (fun i => repeat 0 8 ++ le_bytes 24 (N.of_nat i)) (seq 0 n)).
  split; [by rewrite map_length, seq_length|]. split.
  - apply NoDup_ListNoDup. apply NoDup_ListNoDup. apply NoDup_fmap_2_strong; [|apply NoDup_ListNoDup, seq_NoDup].
    intros i j Hi Hj E. apply elem_of_list_In, in_seq in Hi. apply elem_of_list_In, in_seq in Hj.
    apply app_inv_head in E. apply le_bytes_inj in E; [lia| |]; change (256 ^ N.of_nat 24) with (2 ^ 192); lia.
  - intros x Hx. apply elem_of_list_In, in_map_iff in Hx as (i & <- & _). split; [|split].
    + by rewrite app_length, le_bytes_length.
    + apply Forall_app_2; [by repeat constructor|apply le_bytes_is_byte].
    + unfold null_hash. by rewrite firstn_app.
Qed.

Lemma sip_number_hash k0 k1 m x : k0 < 2 ^ 64 -> k1 < 2 ^ 64 -> Forall is_byte m -> x < 2 ^ 64 ->
  option_map SipFinalize (Write64 (WriteBytes (CSipHasher k0 k1) m) x) =
  if decide (length m mod 8 = 0)%nat then Some (SipHash24 k0 k1 (m ++ le_bytes 8 x)) else None.
Proof.
  intros K0 K1 M X.
  pose proof (write_many k0 k1 m [] _ ltac:(constructor) M (write_none k0 k1 K0 K1)) as W. cbn [app] in W.
  pose proof (sip_number k0 k1 m _ x M X W) as H. destruct (Write64 _ x) as [h'|]; cbn [option_map].
  - destruct H as [E H]. rewrite decide_True by done. f_equal. apply final; [|done].
    apply Forall_app_2; [done|apply le_bytes_is_byte].
  - by rewrite decide_False.
Qed.

Lemma where_key n d : n <> 0 -> Forall is_byte d ->
  key_location const_sip_hash n d = Some (SipHash24 0x1337 0x1337 d mod n).
Proof. intros N D. unfold key_location. rewrite (proj2 (N.eqb_neq _ _)) by done. by rewrite sip_hash. Qed.
